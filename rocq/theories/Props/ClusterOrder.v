(** C116: the numbers of the clusters. *)
From Coq Require Import List ZArith Reals Lra Lia Bool Arith Permutation.
From Verif.Model Require Import Base Ops KMeans Matrix Gmm.
From Verif.Spec Require Import Common KMeans Columns HiddenOrder ClassOrder ClusterOrder.
From Verif.Proof Require Import BaseLemmas KMeans Gmm ClassScore ClusterOrder ClusterKMeans FitFail.
Import ListNotations.
Local Open Scope R_scope.

(** ** Gaussian mixtures *)
(** Training from the same components in another order ends with the same components in
    that order. *)
Theorem C116_mixture : forall n s rnd d x tol epochs t0 t, new_order n s ->
  length (mu t0) = n -> length (sigma t0) = n -> length (alpha t0) = n ->
  gm_loop rnd d n x tol epochs t0 = Ok t ->
  gm_loop rnd d n x tol epochs {| mu := in_that_order [] s (mu t0); sigma := in_that_order [] s (sigma t0); alpha := in_that_order 0 s (alpha t0) |} =
  Ok {| mu := in_that_order [] s (mu t); sigma := in_that_order [] s (sigma t); alpha := in_that_order 0 s (alpha t) |}.
Proof.
  intros n s rnd d x tol epochs t0 t S A B C E. pose proof (gm_loop_moved n s S rnd d x tol epochs t0 (conj A (conj B C))) as F. unfold follows in F. rewrite E in F.
  change (gm_loop rnd d n x tol epochs (comp_moved s t0) = Ok (comp_moved s t)). destruct (gm_loop rnd d n x tol epochs (comp_moved s t0)); [now subst|destruct F].
Qed.
Print Assumptions C116_mixture.
(** Training fails for one order exactly when it fails for the other. *)
Theorem C116_mixture_failure : forall n s rnd d x tol epochs t0, new_order n s ->
  length (mu t0) = n -> length (sigma t0) = n -> length (alpha t0) = n ->
  ((exists e, gm_loop rnd d n x tol epochs t0 = Err e) <->
   exists e, gm_loop rnd d n x tol epochs {| mu := in_that_order [] s (mu t0); sigma := in_that_order [] s (sigma t0); alpha := in_that_order 0 s (alpha t0) |} = Err e).
Proof.
  intros n s rnd d x tol epochs t0 S A B C. pose proof (gm_loop_moved n s S rnd d x tol epochs t0 (conj A (conj B C))) as F. unfold follows in F.
  change {| mu := in_that_order [] s (mu t0); sigma := in_that_order [] s (sigma t0); alpha := in_that_order 0 s (alpha t0) |} with (comp_moved s t0).
  destruct (gm_loop rnd d n x tol epochs t0), (gm_loop rnd d n x tol epochs (comp_moved s t0)); try destruct F; split; intros (e' & E'); try discriminate; eauto.
Qed.
Print Assumptions C116_mixture_failure.
(** The labels are renumbered, if no row has two components of greatest probability. *)
Theorem C116_mixture_labels : forall n s rnd d x t g, new_order n s ->
  length (mu t) = n -> length (sigma t) = n -> length (alpha t) = n ->
  posterior rnd d t x = Ok g -> Forall one_greatest g ->
  exists cl cl', gm_predict rnd d t x = Ok cl /\
    gm_predict rnd d {| mu := in_that_order [] s (mu t); sigma := in_that_order [] s (sigma t); alpha := in_that_order 0 s (alpha t) |} x = Ok cl' /\ renumbered s cl cl'.
Proof. intros n s rnd d x t g S A B C. exact (gm_predict_moved n s S rnd d t x g (conj A (conj B C))). Qed.
Print Assumptions C116_mixture_labels.
(** The whole of [fit]: two ways to start that give the same components in different orders. *)
Theorem C116_mixture_fit : forall n s rnd d x tol epochs randint randint' i_mu i_mu' i_cov i_cov' i_mix i_mix' t0 t cl g, new_order n s ->
  length (mu t0) = n -> length (sigma t0) = n -> length (alpha t0) = n ->
  gm_init d randint x n i_mu i_cov i_mix = Ok t0 ->
  gm_init d randint' x n i_mu' i_cov' i_mix' = Ok {| mu := in_that_order [] s (mu t0); sigma := in_that_order [] s (sigma t0); alpha := in_that_order 0 s (alpha t0) |} ->
  gm_fit rnd d randint x n i_mu i_cov i_mix tol epochs = Ok (t, cl) -> posterior rnd d t x = Ok g -> Forall one_greatest g ->
  exists cl', gm_fit rnd d randint' x n i_mu' i_cov' i_mix' tol epochs =
    Ok ({| mu := in_that_order [] s (mu t); sigma := in_that_order [] s (sigma t); alpha := in_that_order 0 s (alpha t) |}, cl') /\ renumbered s cl cl'.
Proof.
  intros n s rnd d x tol epochs randint randint' i_mu i_mu' i_cov i_cov' i_mix i_mix' t0 t cl g S A B C I I' E G1 G2. unfold gm_fit in *. rewrite I in E. rewrite I'. cbn [bind] in *.
  destruct (gm_loop rnd d n x tol epochs t0) as [t1|] eqn:L; [|discriminate]. cbn [bind] in E. destruct (gm_predict rnd d t1 x) as [cl1|] eqn:P; [|discriminate]. cbn [bind] in E. injection E as -> ->.
  rewrite (C116_mixture n s rnd d x tol epochs t0 t S A B C L). cbn [bind].
  destruct (gm_loop_comps n rnd d x tol epochs t0 t (conj A (conj B C)) L) as (A1 & B1 & C1).
  destruct (C116_mixture_labels n s rnd d x t g S A1 B1 C1 G1 G2) as (cl1 & cl' & E1 & E2 & Rn). exists cl'. rewrite E2. assert (cl1 = cl) by congruence. subst. auto.
Qed.
Print Assumptions C116_mixture_fit.

(** ** K-means *)
(** Training from the same centroids in another order ends with the same centroids in
    that order and with the same clusters, if no row is ever equally near to two
    centroids and no cluster is ever empty. *)
Theorem C116_k_means : forall n s d x tol epochs randint randint' init init' c, new_order n s -> n <> 0%nat -> length c = n ->
  init_centroids randint d x n init = Ok c -> init_centroids randint' d x n init' = Ok (in_that_order [] s c) ->
  unambiguous d x epochs c ->
  exists c1 stop, length c1 = n /\
    ((epochs = 0%nat /\ km_fit randint d x n init tol epochs = Ok (map Some c1, None, stop) /\
      km_fit randint' d x n init' tol epochs = Ok (map Some (in_that_order [] s c1), None, stop)) \/
     exists cl cl', km_fit randint d x n init tol epochs = Ok (map Some c1, Some cl, stop) /\
      km_fit randint' d x n init' tol epochs = Ok (map Some (in_that_order [] s c1), Some cl', stop) /\ renumbered s cl cl').
Proof.
  intros n s d x tol epochs randint randint' init init' c S Hn L I I' U. unfold km_fit. rewrite I, I'. cbn [bind]. destruct epochs as [|e].
  - exists c, false. split; [exact L|]. left. auto.
  - destruct (km_loop_moved n s S d x tol Hn (Datatypes.S e) c None None L U Logic.I) as (c1 & cl & cl' & stop & L1 & E1 & E2 & Rn). exists c1, stop. split; [exact L1|]. right.
    change (in_that_order [] s c) with (rows_in_order s c). change (in_that_order [] s c1) with (rows_in_order s c1).
    destruct cl as [cl|], cl' as [cl'|]; cbn in Rn; try contradiction; [exists cl, cl'; auto|]. exfalso.
    clear - E1. assert (N : forall e c l, km_loop d x tol e c (Some l) <> Ok (map Some c1, None, stop)).
    { clear. induction e as [|e IH]; intros c l; [discriminate|]. cbn [km_loop]. destruct (get_cluster _); [|discriminate]. cbn [bind]. destruct (compare_differences_any _ _ _) as [[|]|]; cbn [bind]; try discriminate. apply IH. }
    cbn [km_loop] in E1. destruct (get_cluster _); [|discriminate]. cbn [bind] in E1. destruct (compare_differences_any _ _ _) as [[|]|]; cbn [bind] in E1; try discriminate. exact (N _ _ _ E1).
Qed.
Print Assumptions C116_k_means.
(** A trained model with its centroids in another order gives renumbered labels, if no
    row is equally near to two centroids. *)
Theorem C116_k_means_labels : forall n s c x cl, new_order n s -> n <> 0%nat -> length c = n -> Forall2 (only_nearest c) x cl ->
  exists cl', km_predict (map Some c) x = Ok cl /\ km_predict (map Some (in_that_order [] s c)) x = Ok cl' /\ renumbered s cl cl'.
Proof.
  intros n s c x cl S Hn L F. destruct (labels_moved n s S c x cl L F) as (cl' & Rn & F'). exists cl'. unfold km_predict. change (in_that_order [] s c) with (rows_in_order s c).
  assert (Nc : c <> []) by (intros ->; cbn in L; lia). assert (Nc' : rows_in_order s c <> []) by (intros Q; pose proof (s_length n s S); destruct s; [cbn in *; lia|discriminate]).
  rewrite (only_labels c x cl Nc F), (only_labels (rows_in_order s c) x cl' Nc' F'). auto.
Qed.
Print Assumptions C116_k_means_labels.
(** With an empty cluster the order matters: the far centroid is dropped if it is the
    second, and if it is the first training stops at once and moves nothing. *)
Theorem C116_empty_cluster_refuted : exists x c s, new_order 2 s /\ length c = 2%nat /\
  km_loop 1 x (1 / 1000) 5 (map Some c) None = Ok ([Some [1 / 2]], Some [0; 0]%nat, true) /\
  km_loop 1 x (1 / 1000) 5 (map Some (in_that_order [] s c)) None = Ok (map Some (in_that_order [] s c), Some [1; 1]%nat, true).
Proof.
  exists [[0]; [1]], [[0]; [100]], [1; 0]%nat. split; [apply perm_swap|]. split; [reflexivity|]. cbn [in_that_order map nth].
  assert (O : forall c x cl, c <> [] -> Forall2 (only_nearest c) x cl -> get_cluster (calculate_euclidean_distance x (map Some c)) = Ok cl) by exact only_labels.
  assert (G1 : get_cluster (calculate_euclidean_distance [[0]; [1]] [Some [0]; Some [100]]) = Ok [0; 0]%nat).
  { apply (O [[0]; [100]]); [discriminate|]. constructor; [|constructor; [|constructor]]; exists [0]; (split; [reflexivity|]); intros [|[|j]] w E N; cbn in E; try (destruct j; discriminate); try lia; injection E as <-; cbn; lra. }
  assert (G2 : get_cluster (calculate_euclidean_distance [[0]; [1]] [Some [100]; Some [0]]) = Ok [1; 1]%nat).
  { apply (O [[100]; [0]]); [discriminate|]. constructor; [|constructor; [|constructor]]; exists [0]; (split; [reflexivity|]); intros [|[|j]] w E N; cbn in E; try (destruct j; discriminate); try lia; injection E as <-; cbn; lra. }
  assert (G3 : get_cluster (calculate_euclidean_distance [[0]; [1]] [Some [1 / 2]]) = Ok [0; 0]%nat) by reflexivity.
  assert (M : calculate_centroids 1 [[0]; [1]] [0; 0]%nat = [Some [1 / 2]]) by (cbn; do 3 f_equal; unfold rmean, rsum; cbn; lra).
  assert (M2 : calculate_centroids 1 [[0]; [1]] [1; 1]%nat = [None]) by reflexivity.
  split.
  - cbn [km_loop map]. rewrite G1. cbn [bind]. rewrite M. unfold compare_differences_any. cbn [length Nat.eqb existsb differ combine fst snd].
    replace (Rltb (1 / 1000) (Rabs (0 - 1 / 2))) with true by (symmetry; apply Rltb_true; rewrite Rabs_left; lra). cbn [orb bind]. rewrite G3. cbn [bind]. rewrite M. cbn [length Nat.eqb existsb differ combine fst snd].
    replace (Rltb (1 / 1000) (Rabs (1 / 2 - 1 / 2))) with false by (symmetry; apply Rltb_false; rewrite Rminus_diag_eq by reflexivity; rewrite Rabs_R0; lra). reflexivity.
  - cbn [km_loop map]. rewrite G2. cbn [bind]. rewrite M2. reflexivity.
Qed.
Print Assumptions C116_empty_cluster_refuted.

(** With ties the labels are not renumbered: the first place wins. *)
Theorem C116_ties_refuted : exists x c s, new_order 2 s /\ length c = 2%nat /\
  km_predict (map Some c) x = Ok [0%nat] /\ km_predict (map Some (in_that_order [] s c)) x = Ok [0%nat] /\ ~ renumbered s [0%nat] [0%nat].
Proof.
  exists [[1]], [[0]; [2]], [1; 0]%nat. split; [apply perm_swap|]. split; [reflexivity|]. cbn [in_that_order map nth].
  assert (P : forall a b, a <> b -> a + b = 2 -> km_predict [Some [a]; Some [b]] [[1]] = Ok [0%nat]).
  { intros a b N E. destruct (predict_nearest [[a]; [b]] [[1]]) as (cl & Ec & F); [discriminate|]. cbn [map] in Ec. rewrite Ec. inversion F as [|? k ? r F1 F2]; subst. inversion F2; subst. do 2 f_equal.
    eapply first_nearest_unique; [exact F1|]. exists [a]. split; [reflexivity|]. intros [|[|j]] w Ew; cbn in Ew; try (destruct j; discriminate); injection Ew as <-; cbn; (split; [nra|lia]). }
  split; [apply P; lra|]. split; [apply P; lra|]. intros R. inversion R as [|? ? ? ? (_ & Q) _]; subst. discriminate Q.
Qed.
Print Assumptions C116_ties_refuted.

(** ** Cases *)
(** Two well separated pairs of rows, two centroids, any number of rounds. *)
Lemma two_pairs_unambiguous : forall rounds a b, -1 < a < 2 -> 8 < b < 12 -> unambiguous 1 [[0]; [1]; [9]; [11]] rounds [[a]; [b]].
Proof.
  induction rounds as [|e IH]; intros a b Ha Hb; [exact I|]. cbn [unambiguous length]. exists [0; 0; 1; 1]%nat. split; [|split].
  - repeat constructor; [exists [a]|exists [a]|exists [b]|exists [b]]; (split; [reflexivity|]); intros [|[|j]] w E N; cbn in E; try (destruct j; discriminate); try lia; injection E as <-; cbn; nra.
  - intros [|[|k]] Hk; cbn; auto; lia.
  - intros c' L H. destruct c' as [|u [|v [|]]]; try discriminate. pose proof (H 0%nat ltac:(lia)) as H0. pose proof (H 1%nat ltac:(lia)) as H1. cbn [nth] in *. destruct H0 as (L0 & H0), H1 as (L1 & H1).
    destruct u as [|u [|]]; try discriminate. destruct v as [|v [|]]; try discriminate. specialize (H0 0%nat ltac:(lia)). specialize (H1 0%nat ltac:(lia)). cbn in H0, H1. unfold mean_of, total in H0, H1. cbn in H0, H1. apply IH; lra.
Qed.
Example C116_k_means_example : forall rounds, new_order 2 [1; 0]%nat /\ length [[0]; [9]] = 2%nat /\ unambiguous 1 [[0]; [1]; [9]; [11]] rounds [[0]; [9]] /\
  init_centroids (fun _ _ => [0; 2]%nat) 1 [[0]; [1]; [9]; [11]] 2 InitRandom = Ok [[0]; [9]] /\
  init_centroids (fun _ _ => [2; 0]%nat) 1 [[0]; [1]; [9]; [11]] 2 InitRandom = Ok (in_that_order [] [1; 0]%nat [[0]; [9]]).
Proof. intros rounds. split; [apply perm_swap|]. split; [reflexivity|]. split; [apply two_pairs_unambiguous; lra|]. split; reflexivity. Qed.
(** Two components of unequal weight. *)
Example C116_mixture_example : let t := {| mu := [[0]; [0]]; sigma := [[[1]]; [[1]]]; alpha := [1 / 4; 3 / 4] |} in
  length (mu t) = 2%nat /\ length (sigma t) = 2%nat /\ length (alpha t) = 2%nat /\
  exists g, posterior (fun p => p) 1 t [[0]; [5]] = Ok g /\ Forall one_greatest g.
Proof.
  intros t. do 3 (split; [reflexivity|]).
  assert (D : forall r, exists p, 0 < p /\ normal_density (fun p => p) 1 r [0] [[1]] = Ok p).
  { intros r. assert (X : exists p, normal_density (fun p => p) 1 r [0] [[1]] = Ok p).
    { unfold normal_density. rewrite inverse_one by lra. replace (Rltb (det 1 [[1]]) 0) with false by (symmetry; apply Rltb_false; cbn; lra). cbn [bind]. destruct (Reqb _ 0); eauto. }
    destruct X as (p & X). exists p. split; [|exact X]. eapply density_pos; [|exact X]. intros q Hq; exact Hq. }
  assert (P : forall r, posterior_row (fun p => p) 1 t r = Ok [1 / 4; 3 / 4]).
  { intros r. destruct (D r) as (p & Hp & E). unfold posterior_row, densities, t. cbn [mu sigma alpha combine mapM fst snd]. rewrite E. cbn [bind map combine fst snd].
    replace (Reqb (rsum [1 / 4 * p; 3 / 4 * p]) 0) with false by (symmetry; apply Reqb_false; cbn; lra). f_equal. unfold rsum. cbn [fold_right map]. f_equal; [field; lra|]. f_equal. field; lra. }
  exists [[1 / 4; 3 / 4]; [1 / 4; 3 / 4]]. split; [unfold posterior; cbn [mapM]; rewrite !P; reflexivity|].
  repeat constructor; exists 1%nat; cbn; (split; [lia|]); intros [|[|j]] Hj N; try lia; lra.
Qed.
