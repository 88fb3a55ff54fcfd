(** C29-C32, C67: K-means. *)
From Coq Require Import List ZArith Reals Lra Lia Arith.
From Verif.Model Require Import Base Ops KMeans.
From Verif.Spec Require Import Common Ops KMeans.
From Verif.Proof Require Import BaseLemmas KMeans KMeansMain.
Import ListNotations.
Local Open Scope R_scope.

(** ** C29 *)
Theorem C29_predict_nearest : forall c x, c <> [] ->
  exists labels, km_predict (map Some c) x = Ok labels /\ Forall2 (fun r k => first_nearest c r k) x labels.
Proof. exact predict_nearest. Qed.
Print Assumptions C29_predict_nearest.

Example C29_witness : km_predict (map Some [[0]; [5/2]]) [[0]; [1]; [4]] = Ok [0; 0; 1]%nat.
Proof. exact k_labels2. Qed.

(** ** C30 *)
Theorem C30_objective_never_increases : forall randint d x n init tol,
  valid_randint randint -> rect d x -> x <> [] -> (1 <= n)%nat -> consistent init ->
  forall epochs r cl st, km_fit randint d x n init tol epochs = Ok (r, cl, st) ->
  exists c0 c', init_centroids randint d x n init = Ok c0 /\ length c0 = n /\
    r = map Some c' /\ rect d c' /\ (1 <= length c' <= n)%nat /\
    exists J J', objective x c0 J /\ objective x c' J' /\ J' <= J.
Proof. exact fit_descends. Qed.
Print Assumptions C30_objective_never_increases.

Example C30_witness : forall randint epochs,
  km_fit randint 1 [[0]; [1]; [4]] 2 (InitArray {| shape := [2%nat]; data := Ints [0; 1]%Z |}) (1/4) (3 + epochs) =
  Ok ([Some [1/2]; Some [4]], Some [0; 0; 1]%nat, true).
Proof. exact k_three_rounds. Qed.

(** ** C31 *)
Theorem C31_early_stop : forall randint d x n init tol,
  valid_randint randint -> rect d x -> x <> [] -> (1 <= n)%nat -> consistent init ->
  forall epochs r cl, km_fit randint d x n init tol epochs = Ok (r, cl, true) ->
  exists c' labels, r = map Some c' /\ cl = Some labels /\ km_predict r x = Ok labels /\
  (In 0%nat labels -> forall k, In k labels ->
     exists v, is_mean_of d x labels k v /\ close tol (nth k c' []) v) /\
  (~ In 0%nat labels -> forall k l, In k labels -> In l labels -> k = l).
Proof. exact fit_stopped. Qed.
Print Assumptions C31_early_stop.

Theorem C31_rounds_exhausted : forall randint d x n init tol,
  valid_randint randint -> rect d x -> x <> [] -> (1 <= n)%nat -> consistent init ->
  forall epochs r cl, km_fit randint d x n init tol (S epochs) = Ok (r, cl, false) ->
  exists c' labels, r = map Some c' /\ cl = Some labels /\ assignment x (length c') labels /\
  forall k, (k < length c')%nat -> is_mean_of d x labels k (nth k c' []).
Proof. exact fit_exhausted. Qed.
Print Assumptions C31_rounds_exhausted.

(** The clusters stored after the last round need not be the predictions. *)
Theorem C31_clusters_are_predictions_refuted : exists randint d x n init tol epochs r labels labels',
  valid_randint randint /\ rect d x /\ consistent init /\ 0 < tol /\
  km_fit randint d x n init tol (S epochs) = Ok (r, Some labels, false) /\
  km_predict r x = Ok labels' /\ labels <> labels'.
Proof. exact exhausted_clusters_differ. Qed.
Print Assumptions C31_clusters_are_predictions_refuted.

(** If every sample falls into one cluster other than the first, training stops
    at once with a centroid that is not near the mean of its samples. *)
Theorem C31_stop_means_converged_refuted : exists randint d x n init tol r c labels,
  valid_randint randint /\ rect d x /\ consistent init /\ 0 < tol /\
  (forall epochs, km_fit randint d x n init tol (S epochs) = Ok (r, Some labels, true)) /\ r = map Some c /\
  exists k v, In k labels /\ is_mean_of d x labels k v /\ ~ close tol (nth k c []) v.
Proof. exact false_stop. Qed.
Print Assumptions C31_stop_means_converged_refuted.

(** Training that stops early; [C31_clusters_are_predictions_refuted] is a training
    that uses up its rounds. *)
Example C31_witness : forall randint epochs, rect 1 [[0]; [1]; [4]] /\
  consistent (InitArray {| shape := [2%nat]; data := Ints [0; 1]%Z |}) /\
  km_fit randint 1 [[0]; [1]; [4]] 2 (InitArray {| shape := [2%nat]; data := Ints [0; 1]%Z |}) (1/4) (3 + epochs) =
  Ok ([Some [1/2]; Some [4]], Some [0; 0; 1]%nat, true).
Proof. intros randint epochs. split; [repeat constructor|]. split; [reflexivity|apply k_three_rounds]. Qed.

(** ** C32 *)
Theorem C32_one_row_per_label : forall d x labels, num_distinct labels (length (calculate_centroids d x labels)).
Proof.
  intros d x labels. rewrite centroids_length. exists (nodup Nat.eq_dec labels). split; [apply NoDup_nodup|].
  split; [reflexivity|]. apply nodup_In.
Qed.
Print Assumptions C32_one_row_per_label.

Theorem C32_rows : forall d x labels k, length labels = length x -> (k < length (calculate_centroids d x labels))%nat ->
  (In k labels -> exists v, nth_error (calculate_centroids d x labels) k = Some (Some v) /\ is_mean_of d x labels k v) /\
  (~ In k labels -> nth_error (calculate_centroids d x labels) k = Some None).
Proof. intros d x labels k H. rewrite centroids_length. exact (centroids_rows d x labels k H). Qed.
Print Assumptions C32_rows.

Theorem C32_gap : forall d x labels, length labels = length x ->
  (exists l, In l labels /\ (length (calculate_centroids d x labels) <= l)%nat) ->
  exists k, nth_error (calculate_centroids d x labels) k = Some None.
Proof. intros d x labels H. rewrite centroids_length. exact (centroids_gap d x labels H). Qed.
Print Assumptions C32_gap.

(** Training fails as soon as a round leaves a cluster empty, unless all
    samples share one cluster. *)
Theorem C32_empty_cluster_fails : forall d x tol epochs c previous labels k, c <> [] ->
  km_predict (map Some c) x = Ok labels -> num_distinct labels k -> (1 < k < length c)%nat ->
  km_loop d x tol (S epochs) (map Some c) previous = Err ValueError.
Proof.
  intros d x tol epochs c previous labels k Hc HP (l & N & L & I) Hk. apply (empty_cluster_fails d x tol epochs c previous labels Hc HP).
  replace (length (nodup Nat.eq_dec labels)) with k; [exact Hk|].
  rewrite <- L. apply Nat.le_antisymm; apply NoDup_incl_length; auto using NoDup_nodup; intros q Hq.
  - apply nodup_In. now apply I.
  - apply I. now apply nodup_In in Hq.
Qed.
Print Assumptions C32_empty_cluster_fails.

Example C32_witness_gap : exists k, nth_error (calculate_centroids 1 [[0]; [1]; [4]] [0; 0; 2]%nat) k = Some None.
Proof. exists 1%nat. reflexivity. Qed.
Example C32_witness_fails : forall epochs,
  km_loop 1 [[0]; [1]; [4]] (1/4) (S epochs) (map Some [[0]; [0]; [4]]) None = Err ValueError.
Proof. intros epochs. apply (empty_cluster_fails 1 _ _ _ _ _ [0; 0; 2]%nat); [discriminate|exact e_labels|simpl; lia]. Qed.

(** ** C67 *)
Theorem C67_training_settles : forall randint d x n init tol,
  valid_randint randint -> rect d x -> x <> [] -> (1 <= n)%nat -> consistent init -> 0 <= tol ->
  exists m, forall epochs, (m <= epochs)%nat ->
    (exists e, km_fit randint d x n init tol epochs = Err e) \/
    (exists r labels, km_fit randint d x n init tol epochs = Ok (r, labels, true)).
Proof. exact fit_converges. Qed.
Print Assumptions C67_training_settles.

Example C67_witness : forall randint epochs,
  km_fit randint 1 [[0]; [1]; [4]] 2 (InitArray {| shape := [2%nat]; data := Ints [0; 1]%Z |}) (1/4) (3 + epochs) =
  Ok ([Some [1/2]; Some [4]], Some [0; 0; 1]%nat, true).
Proof. exact k_three_rounds. Qed.
