(** Witnesses for C107. *)
From Coq Require Import List ZArith Reals Lra Lia Bool Arith.
From Verif.Model Require Import Base Ops KMeans Matrix Gmm.
From Verif.Spec Require Import Common.
From Verif.Proof Require Import BaseLemmas FitFail.
Import ListNotations.
Local Open Scope R_scope.

Notation nornd := (fun p : R => p).
Lemma density_one r c s : 0 < s -> exists p, 0 < p /\ normal_density nornd 1 [r] [c] [[s]] = Ok p.
Proof.
  intros H. unfold normal_density. assert (D : det 1 [[s]] = s) by (unfold det, sign, rsum; cbn; lra). rewrite D.
  destruct (Rltb s 0) eqn:E; [apply Rltb_true in E; lra|]. rewrite inverse_one by lra. cbn [bind].
  set (p := _ * exp _). assert (P : 0 < p).
  { apply Rmult_lt_0_compat; [|apply exp_pos]. apply Rdiv_lt_0_compat; [lra|]. apply Rmult_lt_0_compat; [now apply sqrt_lt_R0|apply exp_pos]. }
  destruct (Reqb p 0) eqn:Z; [apply Reqb_true in Z; lra|]. eauto.
Qed.
Definition one_part (c s : R) : params := {| mu := [[c]]; sigma := [[[s]]]; alpha := [1] |}.
Lemma row_one c s r : 0 < s -> posterior_row nornd 1 (one_part c s) [r] = Ok [1].
Proof.
  intros H. destruct (density_one r c s H) as (p & P & E). unfold posterior_row, densities, one_part. cbn [mu sigma alpha combine mapM fst snd]. rewrite E. cbn [bind combine map fst snd rsum fold_right].
  unfold rsum. cbn [fold_right]. destruct (Reqb (1 * p + 0) 0) eqn:Z; [apply Reqb_true in Z; lra|]. do 2 f_equal. field. lra.
Qed.
Lemma posterior_one c s u v : 0 < s -> posterior nornd 1 (one_part c s) [[u]; [v]] = Ok [[1]; [1]].
Proof. intros H. unfold posterior. cbn [mapM]. rewrite !row_one by auto. reflexivity. Qed.
Lemma round_one c s u v : 0 < s -> em_round nornd 1 1 [[u]; [v]] (one_part c s) = Ok (one_part ((u + v) / 2) (((u - v) / 2) ^ 2)).
Proof.
  intros H. unfold em_round. rewrite posterior_one by auto. cbn [bind]. unfold calculate_means, weighted_mean, calculate_covariances, weighted_cov. cbn [seq mapM column map nth combine fst snd].
  unfold rsum. cbn [fold_right]. destruct (Reqb (1 + (1 + 0)) 0) eqn:Z; [apply Reqb_true in Z; lra|]. cbn [bind seq map combine nth fst snd fold_right].
  unfold one_part, calculate_mixture, column. cbn [seq map nth length INR fold_right]. unfold rsum. cbn [fold_right]. f_equal. f_equal; repeat f_equal; field.
Qed.
Lemma predict_one c s u v : 0 < s -> gm_predict nornd 1 (one_part c s) [[u]; [v]] = Ok [0%nat; 0%nat].
Proof. intros H. unfold gm_predict. rewrite posterior_one by auto. reflexivity. Qed.
Lemma init_one u v : gm_init 1 (fun _ b => repeat 0%nat b) [[u]; [v]] 1 InitRandom CovNone CovNone = Ok (one_part u (1 / 10)).
Proof. unfold gm_init. cbn. unfold one_part. repeat f_equal; try lra. Qed.
Lemma far_one tol p q : far tol [p] [q] = Rltb tol (Rabs (p - q)).
Proof. unfold far. cbn. now rewrite orb_false_r. Qed.
Lemma moved_one tol c s c' s' : moved tol (one_part c s) (one_part c' s') = Rltb tol (Rabs (c - c')) || Rltb tol (Rabs (s - s')) || Rltb tol (Rabs (1 - 1)).
Proof. unfold moved, one_part. cbn [mu sigma alpha combine existsb fst snd]. rewrite !far_one, !orb_false_r. reflexivity. Qed.
Lemma fit_small : gm_fit nornd 1 (fun _ b => repeat 0%nat b) [[0]; [1]] 1 InitRandom CovNone CovNone 10 1 = Ok (one_part 0 (1 / 10), [0%nat; 0%nat]).
Proof.
  unfold gm_fit. rewrite init_one. cbn [bind gm_loop]. rewrite round_one by lra. cbn [bind]. rewrite moved_one.
  assert (F : forall z, -10 <= z <= 10 -> Rltb 10 (Rabs z) = false) by (intros z Hz; apply Rltb_false; unfold Rabs; destruct (Rcase_abs z); lra).
  rewrite !F by lra. cbn [orb bind]. rewrite predict_one by lra. reflexivity.
Qed.
Lemma fit_large : gm_fit nornd 1 (fun _ b => repeat 0%nat b) [[0]; [100]] 1 InitRandom CovNone CovNone 10 1 = Ok (one_part ((0 + 100) / 2) (((0 - 100) / 2) ^ 2), [0%nat; 0%nat]).
Proof.
  unfold gm_fit. rewrite init_one. cbn [bind gm_loop]. rewrite round_one by lra. cbn [bind]. rewrite moved_one.
  assert (T : Rltb 10 (Rabs (0 - (0 + 100) / 2)) = true) by (apply Rltb_true; unfold Rabs; destruct (Rcase_abs _); lra).
  rewrite T. cbn [orb bind]. rewrite predict_one by lra. reflexivity.
Qed.
