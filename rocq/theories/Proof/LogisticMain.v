(** Proofs for C44 to C46, C70 and C71: statements in terms of the
    specification. *)
From Coq Require Import List ZArith Reals Bool Arith Lia Lra Psatz.
From Verif.Model Require Import Base Activations Matrix Logistic.
From Verif.Spec Require Import Common Smo Gmm Matrix Logistic.
From Verif.Proof Require Import BaseLemmas Smo Kernels Gmm KMeans Activations Determinant Logistic.
Import ListNotations.
Local Open Scope R_scope.

Lemma is_gradient_unique x y b g g' : is_gradient x y b g -> is_gradient x y b g' -> g = g'.
Proof.
  intros [L H] [L' H']. apply nth_ext with 0 0; [lia|]. intros j Hj.
  eapply uniqueness_limite; [apply H|apply H']; lia.
Qed.

Lemma gradient_correct d x y b : fits d x y b -> is_gradient x y b (gradient_at d x y b).
Proof.
  intros (L & F & Lb). split; [rewrite gradient_length; lia|]. intros j Hj. apply gradient_is_derivative; auto. lia.
Qed.

Lemma fits_gradient d x y b g : fits d x y b -> is_gradient x y b g -> g = gradient_at d x y b.
Proof. intros F G. eapply is_gradient_unique; eauto. now apply gradient_correct. Qed.

Lemma hessian_correct d x y b j k : fits d x y b -> (j < S d)%nat -> (k < S d)%nat ->
  derivable_pt_lim (fun t => nth j (gradient_at d x y (with_param k t b)) 0) (nth k b 0) (entry (hessian_at d x b) j k).
Proof. intros (L & F & Lb) Hj Hk. now apply hessian_is_derivative. Qed.

Lemma fits_other d x y b c : fits d x y b -> length c = length b -> fits d x y c.
Proof. intros (L & F & Lb) H. split; [auto|]. split; auto. lia. Qed.

Lemma tangent_below d x y b c g : fits d x y b -> length c = length b -> is_gradient x y b g ->
  neg_log_likelihood x y b + inner g (difference c b) <= neg_log_likelihood x y c.
Proof. intros F Lc G. rewrite (fits_gradient _ _ _ _ _ F G). destruct F as (L & Fx & Lb). apply first_order; auto. lia. Qed.

Lemma convex_main d x y a b t : fits d x y a -> length b = length a -> 0 <= t <= 1 ->
  neg_log_likelihood x y (between t a b) <= (1 - t) * neg_log_likelihood x y a + t * neg_log_likelihood x y b.
Proof. intros (L & F & La) Lb Ht. apply (loss_convex d); auto. lia. Qed.

Lemma hessian_psd_main d x y b : fits d x y b -> symmetric_matrix (S d) (hessian_at d x b) /\ psd_matrix (S d) (hessian_at d x b).
Proof. intros (L & F & Lb). split; [now apply (hessian_sym d x y)|now apply (hessian_psd d x y)]. Qed.

Lemma nth_zeros (b : list R) j : nth j (map (fun _ => 0) b) 0 = 0.
Proof. revert j. induction b as [|u b IH]; intros [|j]; simpl; auto. Qed.

Lemma stationary_iff d x y b : fits d x y b -> stationary_point x y b <-> stationary d x y b.
Proof.
  intros F. split.
  - intros G j Hj. rewrite <- (fits_gradient _ _ _ _ _ F G). apply nth_zeros.
  - intros S. split; [apply map_length|]. intros j Hj. rewrite nth_zeros.
    pose proof (proj2 (gradient_correct d x y b F) j Hj) as D. rewrite (S j) in D by (destruct F as (_ & _ & F); lia). exact D.
Qed.

Lemma inner_stationary d x y b v : stationary d x y b -> inner (gradient_at d x y b) v = 0.
Proof. intros S. unfold inner. rewrite gradient_length. apply sum_below_zero. intros m Hm. rewrite (S m Hm). lra. Qed.

(** Stationary points and minima are the same. *)
Lemma minimises_iff d x y b : fits d x y b -> stationary_point x y b <-> minimises x y b.
Proof.
  intros F. rewrite (stationary_iff d) by auto. destruct F as (L & Fx & Lb). split.
  - intros S b' Lb'. apply (stationary_minimum d); auto. lia.
  - intros M j Hj. set (g := gradient_at d x y b). assert (Lg : length g = S d) by apply gradient_length.
    assert (Z : sqnorm g = 0).
    { apply Rle_antisym; [|apply sqnorm_nonneg]. destruct (Rle_or_lt (sqnorm g) 0) as [|P]; auto. exfalso.
      set (K := smoothness x y). assert (K0 : 0 <= K).
      { unfold K, smoothness. assert (0 <= rsum (map (fun p : list R * Z => sqnorm (with_one (fst p))) (combine x y))); [|lra].
        apply rsum_nonneg. intros z Hz. apply in_map_iff in Hz. destruct Hz as (p & <- & _). apply sqnorm_nonneg. }
      assert (Hr : 0 < / (1 + K)) by (apply Rinv_0_lt_compat; lra).
      assert (Hk : / (1 + K) * K < 1) by (apply Rmult_lt_reg_l with (1 + K); [lra|]; rewrite <- Rmult_assoc, Rinv_r by lra; lra).
      pose proof (descent d x y L Fx (/ (1 + K)) b Lb) as D. fold g K in D.
      pose proof (M (gd_step (/ (1 + K)) d x y b)) as M1. rewrite (gd_length d x y) in M1 by auto. specialize (M1 ltac:(lia)).
      assert (0 < / (1 + K) * (1 - / (1 + K) * K / 2) * sqnorm g) by (repeat apply Rmult_lt_0_compat; auto; lra). lra. }
    fold g. clear - Z Hj Lg. revert j Hj Z. generalize dependent g. generalize (S d) as n. unfold sqnorm.
    intros n g Lg j Hj Z. subst n. revert j Hj Z. induction g as [|v g IH]; intros [|j] Hj Z; cbn [length] in *; try lia; simpl in *;
      pose proof (sqnorm_nonneg g) as N; unfold sqnorm in N.
    + nra.
    + apply IH; [lia|nra].
Qed.

(** Two minima predict the same probabilities on the training rows. *)
Lemma minima_agree d x y a b : fits d x y a -> length b = length a -> minimises x y a -> minimises x y b ->
  forall r, In r x -> forward_row a r = forward_row b r.
Proof.
  intros F Lb Ma Mb r Hr. assert (Sa : stationary d x y a) by (apply stationary_iff; auto; apply (minimises_iff d); auto).
  destruct F as (L & Fx & La). assert (E : score a r = score b r).
  { apply (first_order_eq d x y); auto; [lia|]. rewrite (inner_stationary d x y a _ Sa). pose proof (Mb a ltac:(lia)). lra. }
  rewrite Forall_forall in Fx. rewrite !(score_dot d) in E by (auto; lia). unfold forward_row. now rewrite E.
Qed.

(** ** Predictions *)
Lemma forward_score d b r : length r = d -> length b = S d -> forward_row b r = sigmoid (score b r).
Proof. intros Hr Hb. unfold forward_row. now rewrite (score_dot d). Qed.

Lemma predictions_main d b x p : length b = S d -> Forall (fun r => length r = d) x -> p = forward x b ->
  length p = length x /\ forall i, (i < length x)%nat ->
    0 < nth i p 0 < 1 /\ (1 / 2 <= nth i p 0 <-> 0 <= score b (nth i x [])) /\
    (forall k, (k < length x)%nat -> (nth i p 0 < nth k p 0 <-> score b (nth i x []) < score b (nth k x []))) /\
    nth i p 0 = / (1 + exp (- score b (nth i x []))).
Proof.
  intros Hb Fx ->. unfold forward. split; [apply map_length|].
  assert (N : forall i, (i < length x)%nat -> nth i (map (forward_row b) x) 0 = sigmoid (score b (nth i x []))).
  { intros i Hi. rewrite (nth_map_in _ _ _ _ []) by auto. apply (forward_score d); auto. rewrite Forall_forall in Fx. apply Fx, nth_In; auto. }
  intros i Hi. rewrite (N i Hi). split; [apply sigmoid_range|]. split; [apply sigmoid_half|]. split.
  - intros k Hk. rewrite (N k Hk). split; [|apply sigmoid_incr]. intros H.
    destruct (Rtotal_order (score b (nth i x [])) (score b (nth k x []))) as [|[E|G]]; auto; [rewrite E in H; lra|]. apply sigmoid_incr in G. lra.
  - unfold sigmoid. unfold Rdiv. now rewrite Rmult_1_l.
Qed.

(** Training decides the parameters from the start parameters alone. *)
Lemma fit_fresh o init n d x y m m' : lr_loaded m = false -> lr_fit o init n d x y m = Ok m' ->
  lr_fit o init n d x y {| lr_beta := None; lr_loaded := false; lr_trained := false |} = Ok m'.
Proof. unfold lr_fit. intros ->. auto. Qed.

Lemma fit_predict o init n d x y m m' : lr_loaded m = false -> lr_fit o init n d x y m = Ok m' ->
  exists b, opt_run o n d x y init = Ok b /\ lr_beta m' = Some b /\ forall q, lr_predict q m' = Ok (forward q b).
Proof.
  unfold lr_fit. intros ->. simpl. destruct (opt_run o n d x y init) as [b|] eqn:E; simpl; [|discriminate].
  intros H. assert (m' = {| lr_beta := Some b; lr_loaded := false; lr_trained := true |}) by congruence. subst m'.
  exists b. split; auto.
Qed.

Lemma fit_loaded o init init' n d x y m m' : lr_loaded m = true -> lr_fit o init n d x y m = Ok m' -> lr_fit o init' n d x y m = Ok m'.
Proof. unfold lr_fit. intros ->. auto. Qed.

(** ** Gradient descent *)
Lemma curvature_smooth x y : length x = length y -> curvature_bound x = smoothness x y.
Proof.
  unfold curvature_bound, smoothness. intros L. f_equal. change total with rsum.
  revert y L. induction x as [|r x IH]; intros [|l y] L; try discriminate; auto. simpl. unfold rsum in *. cbn [map fold_right].
  rewrite (IH y) by (simpl in L; lia). f_equal. rewrite inner_dot by auto. unfold sqnorm. simpl. unfold with_one. rewrite dot_app by auto. simpl. lra.
Qed.

Lemma sq_length_dot v : sq_length v = sqnorm v. Proof. apply inner_dot. reflexivity. Qed.

Lemma gd_step_main d x y b g rate : fits d x y b -> is_gradient x y b g ->
  (forall j, (j < S d)%nat -> nth j (gd_step rate d x y b) 0 = nth j b 0 - rate * nth j g 0) /\
  neg_log_likelihood x y (gd_step rate d x y b) <= neg_log_likelihood x y b - rate * (1 - rate * curvature_bound x / 2) * sq_length g.
Proof.
  intros F G. rewrite (fits_gradient _ _ _ _ _ F G). destruct F as (L & Fx & Lb). split.
  - intros j Hj. unfold gd_step. rewrite vsub_difference, nth_difference by (rewrite vscale_length, gradient_length; lia).
    f_equal. unfold vscale. rewrite (nth_map_in _ _ _ _ 0) by (rewrite gradient_length; lia). reflexivity.
  - rewrite sq_length_dot, (curvature_smooth x y) by auto. now apply descent.
Qed.

Lemma gd_monotone d x y b rate n b' : fits d x y b -> 0 <= rate -> rate * curvature_bound x <= 2 ->
  opt_run (GradientDescent rate) n d x y b = Ok b' -> neg_log_likelihood x y b' <= neg_log_likelihood x y b.
Proof.
  intros (L & Fx & Lb) Hr Hs. rewrite (curvature_smooth x y) in Hs by auto. revert b Lb. induction n as [|n IH]; intros b Lb E; cbn [opt_run opt_step bind] in E.
  - injection E as <-. lra.
  - pose proof (IH _ (gd_length d x y rate b Lb) E). pose proof (gd_descends d x y L Fx rate b Lb Hr Hs). lra.
Qed.

Lemma gd_rate d x y b c rate n b' : fits d x y b -> length c = length b -> 0 < rate -> rate * curvature_bound x <= 1 -> (0 < n)%nat ->
  opt_run (GradientDescent rate) n d x y b = Ok b' ->
  neg_log_likelihood x y b' <= neg_log_likelihood x y c + sq_length (difference b c) / (2 * rate * INR n).
Proof.
  intros (L & Fx & Lb) Lc Hr Hs Hn E. rewrite (curvature_smooth x y) in Hs by auto.
  destruct (gd_run_rate d x y L Fx rate n b b' c Lb ltac:(lia) Hr Hs E) as (_ & A & _). rewrite sq_length_dot.
  assert (Pn : 0 < INR n) by (apply lt_0_INR; auto). assert (P : 0 < 2 * rate * INR n) by nra.
  pose proof (sqnorm_nonneg (difference b' c)) as N.
  assert (neg_log_likelihood x y b' - neg_log_likelihood x y c <= sqnorm (difference b c) / (2 * rate * INR n)); [|lra].
  apply Rmult_le_reg_l with (2 * rate * INR n); auto. replace (2 * rate * INR n * (sqnorm (difference b c) / (2 * rate * INR n))) with (sqnorm (difference b c)) by (field; lra).
  lra.
Qed.

(** ** Newton *)
Lemma collinear_iff d x : Forall (fun r => length r = d) x -> collinear d x <-> dependent d x.
Proof.
  intros Fx. rewrite Forall_forall in Fx. split; intros (v & Lv & N & H); exists v; split; auto; split; auto; intros r Hr.
  - rewrite <- (score_dot d) by auto. auto.
  - rewrite (score_dot d) by auto. auto.
Qed.

Lemma newton_main d x y b b' g : fits d x y b -> is_gradient x y b g -> newton_step d x y b = Ok b' ->
  length b' = S d /\
  (forall i, (i < S d)%nat -> sum_below (S d) (fun k => entry (hessian_at d x b) i k * nth k (difference b' b) 0) = - nth i g 0) /\
  (stationary_point x y b /\ b' = b \/ ~ stationary_point x y b /\ b' <> b /\ inner g (difference b' b) < 0).
Proof.
  intros F G E. rewrite (fits_gradient _ _ _ _ _ F G). rewrite (stationary_iff d) by auto. destruct F as (L & Fx & Lb).
  split; [now apply (newton_length d x y) with (b := b)|]. split; [now apply newton_solves|]. now apply newton_descent.
Qed.

Lemma newton_fails_main d x y b : fits d x y b -> (exists e, newton_step d x y b = Err e) <-> collinear d x.
Proof. intros (L & Fx & Lb). rewrite collinear_iff by auto. now apply newton_fails. Qed.

Lemma newton_error d x y b e : newton_step d x y b = Err e -> e = LinAlgError.
Proof.
  unfold newton_step. destruct (inverse _ _) as [M|e'] eqn:E; simpl; [discriminate|]. intros H. injection H as <-.
  now destruct (inverse_err E).
Qed.

Lemma newton_constant d x y b c j n : fits d x y b -> (j < d)%nat -> (forall r, In r x -> nth j r 0 = c) ->
  opt_run NewtonMethod (S n) d x y b = Err LinAlgError.
Proof.
  intros F Hj Hc. assert (C : collinear d x).
  { exists (map (fun k => if (k =? j)%nat then 1 else if (k =? d)%nat then - c else 0) (seq 0 (S d))).
    split; [now rewrite map_length, seq_length|]. split.
    - exists j. split; [lia|]. rewrite nth_map_seq by lia. rewrite Nat.eqb_refl. lra.
    - intros r Hr. unfold score. assert (length r = d) as -> by (destruct F as (_ & Fx & _); rewrite Forall_forall in Fx; auto).
      rewrite (sum_below_one d j); auto.
      + rewrite !nth_map_seq by lia. rewrite !Nat.eqb_refl. destruct (Nat.eqb_spec d j); [lia|]. rewrite (Hc r Hr). lra.
      + intros m Hm Ne. rewrite nth_map_seq by lia. destruct (Nat.eqb_spec m j); [lia|]. destruct (Nat.eqb_spec m d); [lia|]. lra. }
  apply (newton_fails_main d x y b F) in C. destruct C as [e E]. cbn [opt_run opt_step]. rewrite E. simpl. f_equal. eapply newton_error; eauto.
Qed.

Lemma loss_of_labels d x y b : fits d x y b -> Forall (fun l => l = 0 \/ l = 1)%Z y ->
  neg_log_likelihood x y b =
  total (map (fun p => - ln (if Z.eqb (snd p) 1 then nth (fst p) (forward x b) 0 else 1 - nth (fst p) (forward x b) 0))
             (combine (seq 0 (length x)) y)).
Proof.
  intros (L & Fx & Lb) Hy. rewrite (loss_sum d) by auto. change total with rsum.
  rewrite (rsum_map_nth ([], 0%Z)), (rsum_map_nth (0%nat, 0%Z)). rewrite !combine_length, seq_length. apply sum_below_ext. intros m Hm.
  rewrite !combine_nth by (rewrite ?seq_length; auto). rewrite seq_nth by lia. cbn [fst snd]. unfold u. cbn [fst].
  unfold forward. rewrite (nth_map_in _ _ _ _ []) by lia. unfold forward_row. rewrite Nat.add_0_l.
  set (s := dot (with_one (nth m x [])) b). rewrite Forall_forall in Hy.
  assert (E : - ln (sigmoid s) = sp s - s).
  { unfold sp. rewrite sigmoid_alt. pose proof (exp_pos s). unfold Rdiv. rewrite ln_mult by (try apply exp_pos; apply Rinv_0_lt_compat; lra).
    rewrite ln_exp, ln_Rinv by lra. lra. }
  assert (E' : - ln (1 - sigmoid s) = sp s).
  { unfold sp. rewrite <- sigmoid_opp. unfold sigmoid. rewrite Ropp_involutive. pose proof (exp_pos s). unfold Rdiv. rewrite Rmult_1_l, ln_Rinv by lra. lra. }
  destruct (Hy (nth m y 0%Z)) as [Z|Z]; [apply nth_In; lia| |]; rewrite Z; simpl; lra.
Qed.

Lemma large_rate : exists x y b, fits 0 x y b /\ neg_log_likelihood x y b < neg_log_likelihood x y (gd_step 100 0 x y b).
Proof.
  exists [[]; []; []], [0%Z; 0%Z; 1%Z], [0]. split; [split; [reflexivity|split; [repeat constructor|reflexivity]]|].
  assert (G : gd_step 100 0 [[]; []; []] [0%Z; 0%Z; 1%Z] [0] = [-50]).
  { unfold gd_step, gradient_at, backward, forward, forward_row, with_one. simpl. replace (1 * 0 + 0) with 0 by lra. rewrite sigmoid_0.
    unfold vsub, vscale. simpl. f_equal. lra. }
  rewrite G. unfold neg_log_likelihood, score, sum_below, total. simpl. replace (0 + 0) with 0 by lra. replace (0 + -50) with (-50) by lra. rewrite exp_0.
  assert (ln (1 + 1) < 1). { apply Rlt_le_trans with (ln (exp 1)); [|rewrite ln_exp; lra]. apply ln_increasing; [lra|]. pose proof (exp_ineq1 1 ltac:(lra)). lra. }
  assert (0 < ln (1 + exp (-50))). { apply Rle_lt_trans with (ln 1); [rewrite ln_1; lra|]. apply ln_increasing; [lra|]. pose proof (exp_pos (-50)). lra. }
  lra.
Qed.
