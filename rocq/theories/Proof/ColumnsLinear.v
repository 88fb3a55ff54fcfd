(** Lemmas for C109: logistic regression with the features in another order. *)
From Coq Require Import List ZArith Reals Lra Lia Bool Arith Permutation.
From Verif.Model Require Import Base Matrix Activations Logistic.
From Verif.Spec Require Import Common Smo Matrix Gmm Logistic Units BayesUnits Columns.
From Verif.Proof Require Import BaseLemmas Counting Smo Kernels Determinant UnitsLinear ColumnsMx Columns.
Import ListNotations.
Local Open Scope R_scope.

Section Logistic.
Variables (d : nat) (s : list nat).
Hypothesis Hs : new_order d s.
Notation s1 := (s ++ [d]).
Lemma order_one : new_order (S d) s1.
Proof. unfold new_order. rewrite seq_S. now apply Permutation_app_tail. Qed.
Lemma with_one_re r : length r = d -> with_one (reordered s r) = reordered s1 (with_one r).
Proof.
  intros L. unfold with_one, reordered. rewrite map_app. cbn [map]. f_equal.
  - apply map_ext_in. intros j I. apply (in_order d s Hs) in I. rewrite app_nth1; [reflexivity|lia].
  - rewrite app_nth2 by lia. replace (d - length r)%nat with 0%nat by lia. reflexivity.
Qed.
Lemma with_one_len r : length r = d -> length (with_one r) = S d.
Proof. intros L. unfold with_one. rewrite app_length. simpl. lia. Qed.
Lemma forward_row_re beta r : length r = d -> length beta = S d -> forward_row (weights_reordered d s beta) (reordered s r) = forward_row beta r.
Proof. intros L B. unfold forward_row, weights_reordered. f_equal. rewrite with_one_re by auto. apply (dot_re (S d) s1 order_one); auto using with_one_len. Qed.
Lemma forward_re x beta : width d x -> length beta = S d -> forward (map (reordered s) x) (weights_reordered d s beta) = forward x beta.
Proof. intros W B. unfold forward. rewrite map_map. apply map_ext_in. intros r I. unfold width in W. rewrite Forall_forall in W. apply forward_row_re; auto. Qed.
Lemma ones_re x : width d x -> map with_one (map (reordered s) x) = map (reordered s1) (map with_one x).
Proof. intros W. rewrite !map_map. apply map_ext_in. intros r I. unfold width in W. rewrite Forall_forall in W. apply with_one_re; auto. Qed.
Lemma backward_re yp yt xh : backward (S d) yp yt (map (reordered s1) xh) = reordered s1 (backward (S d) yp yt xh).
Proof.
  unfold backward. apply (seq_re (S d) s1 order_one). intros j Hj. rewrite combine_map_second, map_map. cbn [fst snd]. f_equal. apply map_ext. intros p. now rewrite (nth_re (S d) s1 order_one).
Qed.
Lemma hessian_re yp xh : hessian (S d) yp (map (reordered s1) xh) = grid_reordered s1 (hessian (S d) yp xh).
Proof.
  unfold hessian. apply (seq_grid (S d) s1 order_one). intros i j Hi Hj. rewrite combine_map_second, map_map. cbn [fst snd]. f_equal. apply map_ext. intros p. now rewrite !(nth_re (S d) s1 order_one).
Qed.
Lemma gradient_re x y beta : width d x -> length beta = S d -> gradient_at d (map (reordered s) x) y (weights_reordered d s beta) = reordered s1 (gradient_at d x y beta).
Proof. intros W B. unfold gradient_at. rewrite forward_re, ones_re by auto. apply backward_re. Qed.
Lemma gradient_len x y beta : length (gradient_at d x y beta) = S d.
Proof. unfold gradient_at, backward. now rewrite map_length, seq_length. Qed.
Lemma opt_step_re o x y beta : width d x -> length beta = S d ->
  opt_step o d (map (reordered s) x) y (weights_reordered d s beta) = (b <- opt_step o d x y beta ;; Ok (weights_reordered d s b)).
Proof.
  intros W B. destruct o as [rate|]; cbn [opt_step bind].
  - f_equal. unfold gd_step. rewrite gradient_re by auto. rewrite vscale_re. unfold weights_reordered. apply (vsub_re (S d) s1); auto. unfold vscale. rewrite map_length. apply gradient_len.
  - unfold newton_step. unfold hessian_at. rewrite forward_re, ones_re, hessian_re, (inverse_reordered order_one) by auto.
    destruct (inverse (S d) (hessian (S d) (forward x beta) (map with_one x))) as [M|] eqn:E; [|reflexivity]. cbn [bind]. f_equal. destruct (inverse_ok E) as [Sq _].
    rewrite gradient_re by auto. rewrite (mat_vec_re (S d) s1 order_one) by auto using gradient_len. unfold weights_reordered. apply (vsub_re (S d) s1); auto. rewrite map_length. apply Sq.
Qed.
Lemma opt_step_len o x y beta b : length beta = S d -> opt_step o d x y beta = Ok b -> length b = S d.
Proof.
  intros B. destruct o as [rate|]; cbn [opt_step].
  - intros E. injection E as <-. unfold gd_step. apply (vsub_len (S d)); auto. unfold vscale. rewrite map_length. apply gradient_len.
  - unfold newton_step. destruct (inverse _ _) as [M|] eqn:E; [|discriminate]. cbn [bind]. intros F. injection F as <-. destruct (inverse_ok E) as [Sq _]. apply (vsub_len (S d)); auto. rewrite map_length. apply Sq.
Qed.
Lemma opt_run_re o epochs x y : width d x -> forall beta, length beta = S d ->
  opt_run o epochs d (map (reordered s) x) y (weights_reordered d s beta) = (b <- opt_run o epochs d x y beta ;; Ok (weights_reordered d s b)).
Proof.
  intros W. induction epochs as [|k IH]; intros beta B; [reflexivity|]. cbn [opt_run]. rewrite opt_step_re by auto.
  destruct (opt_step o d x y beta) as [b|] eqn:E; [|reflexivity]. cbn [bind]. apply IH. exact (opt_step_len o x y beta b B E).
Qed.
Lemma opt_run_len o epochs x y : forall beta b, length beta = S d -> opt_run o epochs d x y beta = Ok b -> length b = S d.
Proof.
  induction epochs as [|k IH]; intros beta b B; cbn [opt_run]; [intros E; injection E as <-; auto|].
  destruct (opt_step o d x y beta) as [c|] eqn:E; [|discriminate]. cbn [bind]. apply IH. exact (opt_step_len o x y beta c B E).
Qed.
Lemma lr_fit_re o init epochs x y m : width d x -> length init = S d -> lr_loaded m = false ->
  both (fun m1 m2 => exists beta, lr_beta m1 = Some beta /\ lr_beta m2 = Some (weights_reordered d s beta) /\
          forall q, width d q -> lr_predict (map (reordered s) q) m2 = lr_predict q m1)
    (lr_fit o init epochs d x y m)
    (lr_fit o (weights_reordered d s init) epochs d (map (reordered s) x) y m).
Proof.
  intros W L H. unfold lr_fit. rewrite H. cbn [bind]. rewrite opt_run_re by auto.
  destruct (opt_run o epochs d x y init) as [beta|] eqn:E; [|reflexivity]. cbn [bind both lr_beta]. exists beta. do 2 (split; [reflexivity|]).
  apply opt_run_len in E; auto. intros q Wq. unfold lr_predict. cbn [lr_trained lr_loaded lr_beta negb andb]. now rewrite forward_re.
Qed.
End Logistic.
