(** C111: features that depend on each other, and too few samples. *)
From Coq Require Import List ZArith Reals Lra Lia Bool Arith String.
From Verif.Model Require Import Base Ops Matrix Logistic KMeans Lda Gmm Preprocessing.
From Verif.Spec Require Import Common Smo Gmm Matrix Lda Units Redundant.
From Verif.Proof Require Import BaseLemmas Smo Determinant Preprocessing Redundant RedundantGmm RedundantKMeans.
Import ListNotations.
Local Open Scope R_scope.
Local Notation length := List.length.

(** ** Newton's method *)
(** Logistic regression with Newton's method raises LinAlgError if and only if the
    features depend on each other, whatever the labels, the start and the number of
    epochs; in all other cases it returns. *)
Theorem C111_newton : forall init epochs d x y m, Forall (fun r => length r = d) x -> x <> [] -> (0 < epochs)%nat ->
  (lr_loaded m = true -> lr_beta m <> None) ->
  (dependent d x -> lr_fit NewtonMethod init epochs d x y m = Err LinAlgError) /\
  (~ dependent d x -> exists m', lr_fit NewtonMethod init epochs d x y m = Ok m').
Proof.
  intros init epochs d x y m F Hx He L. split.
  - intros D. apply newton_fit_fails; auto. intros beta. now apply dependent_newton.
  - intros N. unfold lr_fit. destruct (lr_loaded m).
    + destruct (lr_beta m) as [b|]; [|now destruct (L eq_refl)]. cbn [bind]. destruct (opt_run NewtonMethod epochs d x y b) as [b'|e] eqn:E; [eexists; reflexivity|].
      destruct N. now destruct (newton_run_kernel d x y F Hx epochs b e E).
    + cbn [bind]. destruct (opt_run NewtonMethod epochs d x y init) as [b'|e] eqn:E; [eexists; reflexivity|].
      destruct N. now destruct (newton_run_kernel d x y F Hx epochs init e E).
Qed.
Print Assumptions C111_newton.
(** It raises it whenever there are not more samples than features. *)
Theorem C111_newton_few_samples : forall init epochs d x y m, (length x <= d)%nat -> (0 < epochs)%nat ->
  (lr_loaded m = true -> lr_beta m <> None) -> lr_fit NewtonMethod init epochs d x y m = Err LinAlgError.
Proof. intros init epochs d x y m Few He L. apply newton_fit_fails; auto. intros beta. now apply few_newton. Qed.
Print Assumptions C111_newton_few_samples.
(** One-hot encoded features depend on each other: the numbers of a row add up to one.
    Newton's method cannot be used with what the one-hot encoder returns. *)
Theorem C111_newton_one_hot : forall A (O : TotalOrder A) ci labels rows ci' init epochs d y m, labels <> [] ->
  onehot_call O ci labels = Ok (rows, ci') -> num_distinct labels d -> (0 < epochs)%nat -> lr_loaded m = false ->
  lr_fit NewtonMethod init epochs d (map (map IZR) rows) y m = Err LinAlgError.
Proof.
  intros A O ci labels rows ci' init epochs d y m Hl E Nd He L. destruct (onehot_spec O ci labels) as (rows0 & ci0 & n & E' & Nn & F).
  rewrite E in E'. injection E' as <- <-. assert (Dn : d = n).
  { destruct Nn as (l1 & N1 & <- & I1), Nd as (l2 & N2 & <- & I2). apply Nat.le_antisymm; apply NoDup_incl_length; auto; intros w Iw; [apply I1, I2|apply I2, I1]; exact Iw. }
  subst d.
  assert (G : forall r, In r (map (map IZR) rows) -> length r = n /\ combination n (fun _ => 1) r = 1).
  { intros r I. apply in_map_iff in I. destruct I as (z & <- & I). assert (U0 : exists k, (k < n)%nat /\ unit_vector n k z).
    { clear -F I. induction F as [|l z' ls zs (k & _ & Hk & U & _) F' IH]; [easy|]. destruct I as [->|I]; [now exists k|exact (IH I)]. }
    destruct U0 as (k & Hk & Lz & _ & U). rewrite map_length. split; [exact Lz|].
    unfold combination. rewrite (sum_below_one n k); [|exact Hk|].
    - change 0 with (IZR 0). rewrite map_nth, U, Nat.eqb_refl by auto. ring.
    - intros j Hj N. change 0 with (IZR 0) at 1. rewrite map_nth, U by auto. destruct (Nat.eqb_spec j k); [now destruct N|ring]. }
  apply newton_fit_fails; auto; [|congruence]. intros beta. apply dependent_newton.
  - apply Forall_forall. intros r I. now apply G.
  - destruct labels as [|l labels]; [easy|]. inversion F as [|? ? ? ? (k & _ & Hk & _) _]; subst.
    exists (fun _ => 1), 1. split; [exists k; split; [exact Hk|lra]|]. intros r I. now apply G.
Qed.
Print Assumptions C111_newton_one_hot.

(** ** Discriminant analysis *)
(** With both classes in the data and a correct singular value decomposition: it raises
    LinAlgError if and only if the features depend on each other within the classes. *)
Theorem C111_linear_discriminant : forall svd d x y, decomposes svd d x y -> length x = length y ->
  class_rows 0 x y <> [] -> class_rows 1 x y <> [] ->
  (dependent_in_classes d x y -> lda_fit svd d x y = Err LinAlgError) /\
  (~ dependent_in_classes d x y -> exists m, lda_fit svd d x y = Ok m).
Proof.
  intros svd d x y D L H0 H1. split; [now apply lda_dependent|]. intros N. destruct (lda_fit svd d x y) as [m|e] eqn:E; [now exists m|].
  destruct N. exact (lda_converse svd d x y e D L H0 H1 E).
Qed.
Print Assumptions C111_linear_discriminant.
(** It raises it whenever there are not at least two samples more than features. *)
Theorem C111_linear_discriminant_few_samples : forall svd d x y, decomposes svd d x y -> Forall (fun r => length r = d) x -> length x = length y ->
  class_rows 0 x y <> [] -> class_rows 1 x y <> [] -> (length x <= S d)%nat -> lda_fit svd d x y = Err LinAlgError.
Proof. intros svd d x y D F L H0 H1 Few. apply lda_dependent; auto. now apply few_lda. Qed.
Print Assumptions C111_linear_discriminant_few_samples.

(** ** Gaussian mixtures *)
(** If the features depend on each other, every training that returns has learned
    nothing: it returns what training with no epoch returns. *)
Theorem C111_mixture_learns_nothing : forall rnd d randint x n i_mu i_cov i_mix tol epochs r, dependent d x -> x <> [] -> (0 < n)%nat ->
  gm_fit rnd d randint x n i_mu i_cov i_mix tol epochs = Ok r -> gm_fit rnd d randint x n i_mu i_cov i_mix tol 0 = Ok r.
Proof.
  intros rnd d randint x n i_mu i_cov i_mix tol epochs r (v & c & Hv & Hc) Hx Hn E. destruct epochs as [|e]; [exact E|].
  rewrite (fit_flat rnd d x v c Hv Hc) in E by auto. unfold gm_fit. destruct (gm_init d randint x n i_mu i_cov i_mix) as [t0|]; cbn [bind gm_loop] in *; [|discriminate].
  destruct (em_round rnd d n x t0) as [t1|]; cbn [bind] in E; [|discriminate]. destruct (moved tol t0 t1); [discriminate|exact E].
Qed.
Print Assumptions C111_mixture_learns_nothing.
(** With the default covariances and a tolerance below 0.1 / d it never returns. *)
Theorem C111_mixture_default_fails : forall rnd d randint x n i_mu i_mix tol epochs r, dependent d x -> x <> [] -> (0 < n)%nat -> (0 < epochs)%nat ->
  INR d * tol < 1 / 10 -> gm_fit rnd d randint x n i_mu CovNone i_mix tol epochs <> Ok r.
Proof.
  intros rnd d randint x n i_mu i_mix tol epochs r (v & c & Hv & Hc) Hx Hn He Ht. destruct epochs as [|e]; [lia|].
  exact (default_fails rnd d x v c Hv Hc randint n i_mu i_mix tol e Hn Hx Ht r).
Qed.
Print Assumptions C111_mixture_default_fails.
(** Not more samples than features always depend on each other. *)
Theorem C111_few_samples_depend : forall d x, Forall (fun r => length r = d) x -> x <> [] -> (length x <= d)%nat -> dependent d x.
Proof. intros d x F Hx Few. now apply few_dependent. Qed.
Print Assumptions C111_few_samples_depend.
Theorem C111_mixture_few_samples : forall rnd d randint x n i_mu i_mix tol epochs r, Forall (fun r => length r = d) x -> x <> [] -> (length x <= d)%nat ->
  (0 < n)%nat -> (0 < epochs)%nat -> INR d * tol < 1 / 10 -> gm_fit rnd d randint x n i_mu CovNone i_mix tol epochs <> Ok r.
Proof. intros. apply C111_mixture_default_fails; auto. now apply few_dependent. Qed.
Print Assumptions C111_mixture_few_samples.

(** ** K-means *)
(** K-means does not notice a feature that is the same in all rows. *)
Theorem C111_kmeans : forall c d randint x n init tol epochs, 0 <= tol -> Forall (fun r => length r = d) x -> starts_at_rows init ->
  match km_fit randint d x n init tol epochs, km_fit randint (S d) (map (fun r => r ++ [c]) x) n init tol epochs with
  | Ok (cs, l, s), Ok (cs', l', s') => cs' = map (option_map (fun v => v ++ [c])) cs /\ l' = l /\ s' = s /\
      forall q, Forall (fun r => length r = d) q -> km_predict cs' (map (fun r => r ++ [c]) q) = km_predict cs q
  | Err e, Err e' => e' = e
  | _, _ => False
  end.
Proof.
  intros c d randint x n init tol epochs T F B. pose proof (km_fit_extended c d randint x n init tol epochs T F B) as E. unfold extended in E. rewrite E.
  destruct (km_fit randint d x n init tol epochs) as [[[cs l] s]|] eqn:Ek; [|reflexivity]. split; [reflexivity|]. split; [reflexivity|]. split; [reflexivity|].
  intros q Fq. apply (predict_extended c d); [exact Fq|]. exact (fit_sized d randint x n init tol epochs cs l s F B Ek).
Qed.
Print Assumptions C111_kmeans.

(** ** Cases *)
(** A feature in two units, and one that is not. *)
Example C111_dependent_example : dependent 2 [[1; 10]; [2; 20]; [5; 50]] /\ ~ dependent 2 [[1; 10]; [2; 20]; [5; 40]].
Proof.
  split.
  - exists (fun j => if (j =? 0)%nat then 10 else -1), 0. split; [exists 0%nat; split; [lia|cbn; lra]|].
    intros r I. unfold combination, sum_below. cbn in I. intuition (subst; cbn; lra).
  - intros (v & c & (i & Hi & Hv) & C). apply Hv.
    pose proof (C [1; 10] ltac:(cbn; auto)) as C1. pose proof (C [2; 20] ltac:(cbn; auto)) as C2. pose proof (C [5; 40] ltac:(cbn; auto)) as C3.
    unfold combination, sum_below in C1, C2, C3. cbn in C1, C2, C3.
    destruct i as [|[|i]]; [lra|lra|lia].
Qed.
Example C111_newton_example : forall y m, lr_loaded m = false ->
  lr_fit NewtonMethod [0; 0; 0] 5 2 [[1; 10]; [2; 20]; [5; 50]] y m = Err LinAlgError /\
  exists m', lr_fit NewtonMethod [0; 0; 0] 5 2 [[1; 10]; [2; 20]; [5; 40]] y m = Ok m'.
Proof.
  intros y m L. split; apply C111_newton; try discriminate; try lia; try congruence; try (repeat constructor); apply C111_dependent_example.
Qed.
Example C111_one_hot_example : exists rows ci, onehot_call ZOrder [] [3; 7; 3]%Z = Ok (rows, ci) /\ rows = [[1; 0]; [0; 1]; [1; 0]]%Z /\ num_distinct [3; 7; 3]%Z 2.
Proof.
  do 2 eexists. split; [reflexivity|]. split; [reflexivity|]. exists [3; 7]%Z. split; [|split; [reflexivity|]].
  - repeat constructor; cbn; intuition discriminate.
  - intros z. cbn. tauto.
Qed.
(** Two features, the second one always 5. *)
Definition five_x : list (list R) := [[0; 5]; [1; 5]; [3; 5]; [4; 5]].
Definition five_y : list Z := [0; 0; 1; 1]%Z.
Definition five_svd (s : list (list R)) : list (list R) * list R * list (list R) := ([[1; 0]; [0; 1]], [1; 0], [[1; 0]; [0; 1]]).
Example C111_discriminant_example : decomposes five_svd 2 five_x five_y /\ dependent_in_classes 2 five_x five_y /\
  lda_fit five_svd 2 five_x five_y = Err LinAlgError.
Proof.
  assert (D : decomposes five_svd 2 five_x five_y).
  { intros s (_ & Hs). unfold five_svd, singular_value_decomposition, square.
    assert (E : forall i j, (i < 2)%nat -> (j < 2)%nat -> entry s i j = if (i =? 0)%nat && (j =? 0)%nat then 1 else 0).
    { intros i j Hi Hj. rewrite Hs by auto. unfold class_scatter, class_mean, class_rows, five_x, five_y. 
      destruct i as [|[|i]], j as [|[|j]]; try lia; cbn; lra. }
    split; [repeat constructor|]. split; [repeat constructor|]. split; [reflexivity|].
    split; [intros [|[|i]] [|[|j]] Hi Hj; try lia; unfold sum_below, entry; cbn; lra|].
    split; [intros [|[|i]] [|[|j]] Hi Hj; try lia; unfold sum_below, entry; cbn; lra|].
    split; [intros [|[|i]] Hi; try lia; cbn; lra|].
    split; [intros [|[|i]] [|[|j]] Hi Hj; try lia; cbn; lra|].
    intros i j Hi Hj. rewrite E by auto. destruct i as [|[|i]], j as [|[|j]]; try lia; unfold sum_below, entry; cbn; lra. }
  assert (P : dependent_in_classes 2 five_x five_y).
  { exists (fun j => if (j =? 1)%nat then 1 else 0). split; [exists 1%nat; split; [lia|cbn; lra]|].
    intros l [-> | ->]; exists 5; intros r I; cbn in I; intuition (subst; unfold combination, sum_below; cbn; lra). }
  split; [exact D|]. split; [exact P|]. apply C111_linear_discriminant; auto; discriminate.
Qed.
(** Two equal samples: with a large tolerance training returns and has learned nothing. *)
Lemma five_density : exists p, 0 < p /\ normal_density (fun r => r) 1 [5] [5] [[1 / 10]] = Ok p.
Proof.
  assert (Dt : det 1 [[1 / 10]] = 1 / 10) by (cbn; lra). unfold normal_density. rewrite Dt. replace (Rltb (1 / 10) 0) with false by (symmetry; apply Rltb_false; lra).
  unfold inverse. rewrite Dt. replace (Reqb (1 / 10) 0) with false by (symmetry; destruct (Reqb (1 / 10) 0) eqn:Q; [apply Reqb_true in Q; lra|reflexivity]).
  cbn [bind]. set (e := exp _). set (w := Rpower _ _). assert (P : 0 < 1 / (sqrt (1 / 10) * w) * e).
  { apply Rmult_lt_0_compat; [|apply exp_pos]. apply Rdiv_lt_0_compat; [lra|]. apply Rmult_lt_0_compat; [apply sqrt_lt_R0; lra|apply exp_pos]. }
  destruct (Reqb _ 0) eqn:Q; [apply Reqb_true in Q; lra|]. eexists. split; [exact P|reflexivity].
Qed.
Example C111_mixture_example : dependent 1 [[5]; [5]] /\ INR 1 * (1 / 1000) < 1 / 10 /\
  exists r, gm_fit (fun r => r) 1 (fun _ _ => [0%nat]) [[5]; [5]] 1 InitRandom CovNone CovNone 1 3 = Ok r /\
  forall tol, tol < 1 / 10 -> gm_fit (fun r => r) 1 (fun _ _ => [0%nat]) [[5]; [5]] 1 InitRandom CovNone CovNone tol 3 <> Ok r.
Proof.
  assert (D : dependent 1 [[5]; [5]]).
  { exists (fun _ => 1), 5. split; [exists 0%nat; split; [lia|lra]|]. intros r I. cbn in I. intuition (subst; unfold combination, sum_below; cbn; lra). }
  split; [exact D|]. split; [cbn; lra|].
  assert (K : exists r, gm_fit (fun r => r) 1 (fun _ _ => [0%nat]) [[5]; [5]] 1 InitRandom CovNone CovNone 1 3 = Ok r).
  { destruct D as (v & c & Hv & Hc). rewrite (fit_flat (fun r => r) 1 _ v c Hv Hc) by (lia || discriminate).
    destruct five_density as (p & Pp & Ep).
    assert (I0 : gm_init 1 (fun _ _ => [0%nat]) [[5]; [5]] 1 InitRandom CovNone CovNone = Ok {| mu := [[5]]; sigma := [[[1 / 10]]]; alpha := [1 / INR 1] |}) by reflexivity.
    set (t0 := {| mu := [[5]]; sigma := [[[1 / 10]]]; alpha := [1 / INR 1] |}) in *.
    assert (Pr : posterior_row (fun r => r) 1 t0 [5] = Ok [1]).
    { unfold posterior_row, densities, t0. cbn [mu sigma alpha combine mapM fst snd]. rewrite Ep. cbn [bind combine map fst snd INR]. unfold rsum. cbn [fold_right].
      destruct (Reqb _ 0) eqn:Q; [apply Reqb_true in Q; lra|]. do 2 f_equal. field. lra. }
    assert (Po : posterior (fun r => r) 1 t0 [[5]; [5]] = Ok [[1]; [1]]) by (unfold posterior; cbn [mapM]; rewrite Pr; reflexivity).
    rewrite I0. cbn [bind]. unfold em_round. rewrite Po. cbn [bind].
    assert (S2 : rsum (column 0 [[1]; [1]] 0) = 2) by (unfold rsum, column; cbn; lra).
    assert (M : calculate_means 1 1 [[5]; [5]] [[1]; [1]] = Ok [[5]]).
    { unfold calculate_means. cbn [seq mapM]. unfold weighted_mean. rewrite S2. destruct (Reqb 2 0) eqn:Q; [apply Reqb_true in Q; lra|]. cbn [bind seq map combine fst snd nth].
      unfold rsum. cbn [fold_right]. do 3 f_equal. lra. }
    assert (C : calculate_covariances 1 1 [[5]; [5]] [[5]] [[1]; [1]] = Ok [[[0]]]).
    { unfold calculate_covariances. cbn [seq mapM]. unfold weighted_cov. rewrite S2. destruct (Reqb 2 0) eqn:Q; [apply Reqb_true in Q; lra|]. cbn [bind seq map combine fst snd nth].
      unfold rsum. cbn [fold_right]. do 4 f_equal. lra. }
    rewrite M. cbn [bind]. rewrite C. cbn [bind].
    assert (Mv : moved 1 t0 {| mu := [[5]]; sigma := [[[0]]]; alpha := calculate_mixture 1 (length [[5]; [5]]) [[1]; [1]] |} = false).
    { unfold moved, far, t0, calculate_mixture. cbn [mu sigma alpha combine existsb fst snd seq map length]. rewrite S2. cbn [INR].
      assert (T : forall z, Rabs z <= 1 -> Rltb 1 (Rabs z) = false) by (intros z Hz; apply Rltb_false; lra).
      rewrite !T; [reflexivity| | |]; apply Rabs_le; lra. }
    rewrite Mv. unfold gm_predict. rewrite Po. cbn [bind mapM map]. eexists. reflexivity. }
  destruct K as (r & E). exists r. split; [exact E|]. intros tol Ht. apply C111_mixture_default_fails; auto; [discriminate|cbn; lra].
Qed.
Example C111_kmeans_example : Forall (fun r => length r = 1%nat) [[1]; [4]; [9]] /\ starts_at_rows InitRandom /\
  map (fun r => r ++ [7]) [[1]; [4]; [9]] = [[1; 7]; [4; 7]; [9; 7]].
Proof. split; [repeat constructor|]. split; [now left|reflexivity]. Qed.
