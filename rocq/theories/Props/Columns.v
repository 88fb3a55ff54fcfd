(** C109: the features in another order. *)
From Coq Require Import List ZArith Reals Lra Lia Bool Arith Permutation.
From Verif.Model Require Import Base Ops KMeans Matrix Activations Metrics Logistic Lda Gmm Stump Network Rbf.
From Verif.Spec Require Import Common Smo Matrix Gmm Logistic Lda Svc Stump Units BayesUnits Columns.
From Verif.Proof Require Import BaseLemmas Counting Stump Columns ColumnsMx ColumnsLinear ColumnsNet ColumnsStump Lda ColumnsLda.
Import ListNotations.
Local Open Scope R_scope.

(** Logistic regression, with either optimizer, after any number of epochs: the
    weights follow the features and every row gets the same probability, or both
    trainings raise the same exception. *)
Theorem C109_logistic_columns : forall d s o init epochs x y m, new_order d s -> Units.width d x -> length init = S d -> lr_loaded m = false ->
  both (fun m1 m2 => exists beta, lr_beta m1 = Some beta /\ lr_beta m2 = Some (weights_reordered d s beta) /\
          forall q, Units.width d q -> lr_predict (map (reordered s) q) m2 = lr_predict q m1)
    (lr_fit o init epochs d x y m)
    (lr_fit o (weights_reordered d s init) epochs d (map (reordered s) x) y m).
Proof. intros d s o init epochs x y m Hs W L H. now apply lr_fit_re. Qed.
Print Assumptions C109_logistic_columns.

(** K-means from the same starting points: the same clusters after the same rounds,
    and centroids whose entries follow the features. *)
Theorem C109_kmeans_columns : forall d s randint x n i i' tol epochs, new_order d s -> Units.width d x -> same_starts d s n i i' ->
  both (fun r r' => fst (fst r') = map (option_map (reordered s)) (fst (fst r)) /\ snd (fst r') = snd (fst r) /\ snd r' = snd r /\
          forall q, Units.width d q -> km_predict (fst (fst r')) (map (reordered s) q) = km_predict (fst (fst r)) q)
    (km_fit randint d x n i tol epochs) (km_fit randint d (map (reordered s) x) n i' tol epochs).
Proof.
  intros d s randint x n i i' tol epochs Hs W S. pose proof (km_fit_re d s Hs randint x n i i' tol epochs W S) as H. unfold both in *.
  destruct (km_fit randint d x n i tol epochs) as [[[c cl] b]|]; destruct (km_fit randint d (map (reordered s) x) n i' tol epochs) as [[[c' cl'] b']|]; auto.
  cbn [fst snd] in *. destruct H as [E Q]. injection E as -> -> ->. auto.
Qed.
Print Assumptions C109_kmeans_columns.

(** Gaussian mixtures from the same starting values: the same mixing coefficients and
    clusters; means and covariances follow the features. *)
Theorem C109_mixture_columns : forall rnd d s randint x n i i' icov icov' imix tol epochs, new_order d s -> Units.width d x ->
  same_starts d s n i i' -> same_covariances d s n icov icov' ->
  both (fun r r' => mu (fst r') = map (reordered s) (mu (fst r)) /\ sigma (fst r') = map (grid_reordered s) (sigma (fst r)) /\
          alpha (fst r') = alpha (fst r) /\ snd r' = snd r /\
          forall q, Units.width d q -> gm_predict rnd d (fst r') (map (reordered s) q) = gm_predict rnd d (fst r) q)
    (gm_fit rnd d randint x n i icov imix tol epochs) (gm_fit rnd d randint (map (reordered s) x) n i' icov' imix tol epochs).
Proof.
  intros rnd d s randint x n i i' icov icov' imix tol epochs Hs W S C. pose proof (gm_fit_re d s Hs rnd randint x n i i' icov icov' imix tol epochs W S C) as H. unfold both in *.
  destruct (gm_fit rnd d randint x n i icov imix tol epochs) as [[p cl]|]; destruct (gm_fit rnd d randint (map (reordered s) x) n i' icov' imix tol epochs) as [[p' cl']|]; auto.
  cbn [fst snd] in *. destruct H as (-> & -> & Q). auto.
Qed.
Print Assumptions C109_mixture_columns.

(** Networks whose first-layer weights follow the features: the outputs are the same,
    and stay the same through any number of epochs with the same drawn rows, with
    stochastic gradient descent and with Adam. *)
Theorem C109_network_outputs : forall d s ls x, new_order d s -> takes_features d ls -> Units.width d x ->
  both (fun r r' => fst r' = fst r) (Network.forward ls x) (Network.forward (layers_reordered s ls) (map (reordered s) x)).
Proof. intros d s ls x Hs T W. rewrite (forward_net_re d s Hs) by auto. destruct (Network.forward ls x); reflexivity. Qed.
Print Assumptions C109_network_outputs.
Theorem C109_sgd_columns : forall d s rate x y ls draws, new_order d s -> takes_features d ls -> Units.width d x ->
  both (fun r r' => r' = layers_reordered s r /\ forall q, Units.width d q ->
          both (fun a a' => fst a' = fst a) (Network.forward r q) (Network.forward r' (map (reordered s) q)))
    (sgd_run rate x y ls draws) (sgd_run rate (map (reordered s) x) y (layers_reordered s ls) draws).
Proof.
  intros d s rate x y ls draws Hs T W. destruct (sgd_run_re d s Hs rate x y draws ls T W) as [E K]. rewrite E. destruct (sgd_run rate x y ls draws) as [r|]; [|reflexivity]. cbn [bind both].
  split; [reflexivity|]. intros q Wq. exact (C109_network_outputs d s r q Hs (K r eq_refl) Wq).
Qed.
Print Assumptions C109_sgd_columns.
Theorem C109_adam_columns : forall d s o x y ls draws, new_order d s -> takes_features d ls -> Units.width d x ->
  both (fun r r' => r' = layers_reordered s r /\ forall q, Units.width d q ->
          both (fun a a' => fst a' = fst a) (Network.forward r q) (Network.forward r' (map (reordered s) q)))
    (adam_run o x y ls draws) (adam_run o (map (reordered s) x) y (layers_reordered s ls) draws).
Proof.
  intros d s o x y ls draws Hs T W. destruct (adam_run_re d s Hs o x y draws ls T W) as [E K]. rewrite E. destruct (adam_run o x y ls draws) as [r|]; [|reflexivity]. cbn [bind both].
  split; [reflexivity|]. intros q Wq. exact (C109_network_outputs d s r q Hs (K r eq_refl) Wq).
Qed.
Print Assumptions C109_adam_columns.

(** Radial basis functions whose centres follow the features: the same weights,
    widths, losses and predictions. *)
Theorem C109_rbf_columns : forall d s rate x y epochs w b c beta, new_order d s -> Units.width d x -> Units.width d c ->
  both (fun r r' => rw (fst r') = rw (fst r) /\ rb (fst r') = rb (fst r) /\ rbeta (fst r') = rbeta (fst r) /\
          rc (fst r) = c /\ rc (fst r') = map (reordered s) c /\ snd r' = snd r /\
          forall q, Units.width d q -> rbf_predict (fst r') (map (reordered s) q) = rbf_predict (fst r) q)
    (rbf_run rate x y epochs {| rw := w; rb := b; rc := c; rbeta := beta |})
    (rbf_run rate (map (reordered s) x) y epochs {| rw := w; rb := b; rc := map (reordered s) c; rbeta := beta |}).
Proof.
  intros d s rate x y epochs w b c beta Hs W C. set (p := {| rw := w; rb := b; rc := c; rbeta := beta |}). change {| rw := w; rb := b; rc := map (reordered s) c; rbeta := beta |} with (rbf_re s p).
  destruct (rbf_run_re d s Hs rate x y epochs W p C) as [E K]. rewrite E. destruct (rbf_run rate x y epochs p) as [r|]; [|reflexivity]. cbn [bind both fst snd]. specialize (K r eq_refl).
  do 3 (split; [reflexivity|]). split; [exact K|]. split; [unfold rbf_re; cbn [rc]; now rewrite K|]. split; [reflexivity|].
  intros q Wq. unfold rbf_predict. rewrite (rbf_forward_re d s Hs); auto. now rewrite K.
Qed.
Print Assumptions C109_rbf_columns.

(** The decision stump makes the same number of mistakes on the training rows. *)
Theorem C109_stump_mistakes : forall d s D n n', new_order d s -> plus_minus D ->
  let D' := map (fun p => (reordered s (fst p), snd p)) D in
  how_many (fun p => exists l, stump_predict (stump_fit d D) [fst p] = Ok [l] /\ l <> snd p) D n ->
  how_many (fun p => exists l, stump_predict (stump_fit d D') [fst p] = Ok [l] /\ l <> snd p) D' n' -> n' = n.
Proof.
  intros d s D n n' Hs P D' H H'. pose proof (stump_re d s Hs D P) as S. change (rows_re s D) with D' in S.
  assert (G : forall c E k, how_many (fun p => exists l, stump_predict (Some c) [fst p] = Ok [l] /\ l <> snd p) E k -> k = count (wrong c) E).
  { intros [[j t] m] E k HH. eapply hm_unique; [exact HH|]. apply hm_count. intros p. unfold wrong. cbn [stump_predict map]. rewrite negb_true_iff, Z.eqb_neq. split; intros Q.
    - eexists. split; [reflexivity|exact Q].
    - destruct Q as (l & El & Nl). injection El as <-. exact Nl. }
  assert (N : forall E k, how_many (fun p : list R * Z => exists l, stump_predict None [fst p] = Ok [l] /\ l <> snd p) E k -> k = 0%nat).
  { intros E k HH. induction HH as [|p E k Q HH IH|p E k Q HH IH]; auto. destruct Q as (l & Q & _). discriminate. }
  destruct (stump_fit d D) as [c|], (stump_fit d D') as [c'|]; try contradiction.
  - apply G in H, H'. congruence.
  - apply N in H, H'. congruence.
Qed.
Print Assumptions C109_stump_mistakes.

(** But its answers for new rows may change: of two features that are equally good the
    first one is used. *)
Theorem C109_stump_answers_refuted : exists s D q a a', new_order 2 s /\ plus_minus D /\
  stump_predict (stump_fit 2 D) [q] = Ok [a] /\
  stump_predict (stump_fit 2 (map (fun p => (reordered s (fst p), snd p)) D)) [reordered s q] = Ok [a'] /\ a <> a'.
Proof.
  exists [1; 0]%nat, twin, [0; 5], 1%Z, (-1)%Z. split; [apply perm_swap|]. split; [intros p H; simpl in H; intuition (subst; simpl; auto)|].
  change (map (fun p => (reordered [1; 0]%nat (fst p), snd p)) twin) with twin. rewrite twin_fit. unfold reordered. cbn [stump_predict map nth]. unfold stump_label, feat. cbn [nth].
  destruct (Rleb 1 0) eqn:E1; [apply Rleb_true in E1; lra|]. destruct (Rleb 1 5) eqn:E2; [|apply Rleb_false in E2; lra]. repeat split; congruence.
Qed.
Print Assumptions C109_stump_answers_refuted.

(** Linear discriminant analysis: with correct singular value decompositions, the
    same four rows all get label 0 in one order of the features and the right labels in
    the other. *)
Theorem C109_lda_columns_refuted : exists svd s x y m m', new_order 2 s /\
  decomposes svd 2 x y /\ decomposes svd 2 (map (reordered s) x) y /\
  lda_fit svd 2 x y = Ok m /\ lda_fit svd 2 (map (reordered s) x) y = Ok m' /\
  map (lda_predict m) x = [0; 0; 0; 0]%Z /\ map (lda_predict m') (map (reordered s) x) = y /\ y = [0; 0; 1; 1]%Z.
Proof.
  destruct turned_old as (m & E & P). destruct turned_fit as (m' & E' & P'). exists turned_svd, [1; 0]%nat, wit_x, wit_y, m, m'. rewrite turned_order.
  split; [apply perm_swap|]. destruct turned_decomposes as [D D']. repeat (split; auto).
Qed.
Print Assumptions C109_lda_columns_refuted.

(** Cases that meet the hypotheses. *)
Example C109_witness : new_order 3 [2; 0; 1]%nat /\ reordered [2; 0; 1]%nat [4; 5; 6] = [6; 4; 5] /\
  weights_reordered 3 [2; 0; 1]%nat [4; 5; 6; 7] = [6; 4; 5; 7] /\
  Units.width 3 [[1; 2; 3]; [4; 5; 6]] /\ same_starts 3 [2; 0; 1]%nat 2 InitRandom InitRandom /\
  same_starts 3 [2; 0; 1]%nat 2 (start_array [[1; 2; 3]; [4; 5; 6]] 3) (start_array [[3; 1; 2]; [6; 4; 5]] 3) /\
  same_covariances 3 [2; 0; 1]%nat 2 CovNone CovNone /\
  same_covariances 2 [1; 0]%nat 2 (matrix_array 2 [[[1; 2]; [3; 4]]; [[5; 6]; [7; 8]]]) (matrix_array 2 [[[4; 3]; [2; 1]]; [[8; 7]; [6; 5]]]) /\
  takes_features 3 [([[1; 2; 3]; [4; 5; 6]], [0; 0]); ([[1; 1]], [0])] /\
  exists r, sgd_run 1 [[1; 2; 3]] [[1]] [([[1; 2; 3]; [4; 5; 6]], [0; 0]); ([[1; 1]], [0])] [0; 0]%nat = Ok r.
Proof.
  split. { unfold new_order. cbn [seq]. apply perm_trans with [0; 2; 1]%nat; [apply perm_swap|apply perm_skip, perm_swap]. }
  do 2 (split; [reflexivity|]). split; [repeat constructor|]. split; [left; split; [now left|reflexivity]|].
  split. { right. exists [[1; 2; 3]; [4; 5; 6]]. repeat split; auto; repeat constructor. }
  split; [left; auto|]. split. { right. exists [[[1; 2]; [3; 4]]; [[5; 6]; [7; 8]]]. repeat split; auto; repeat constructor. }
  split; [repeat constructor|]. eexists. reflexivity.
Qed.
