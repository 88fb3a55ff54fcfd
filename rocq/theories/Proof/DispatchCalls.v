(** Proofs about the calls that classicML makes to compiled functions, and about what
    single precision does to their arguments. *)
From Coq Require Import List ZArith Bool Arith Lia Reals Lra.
From Flocq Require Import Core.
From Verif.Model Require Import Base Dispatch Float.
From Verif.Spec Require Import Dispatch.
From Verif.Model Require Cpp.
From Verif.Proof Require Import BaseLemmas Dispatch.
From Verif.Proof Require Float.
Import ListNotations.

Section Calls.
Variables (ti : bool) (ai : bool -> dtype -> list nat -> bool).
Notation call := (dispatch ti ai).

Lemma usable_array w s : length s = 1 \/ length s = 2 -> usable (Array (real_dtype w) s).
Proof. intros H. split; auto. destruct w; reflexivity. Qed.
Lemma usable_of t s : numeric_dtype t = true -> length s = 1 \/ length s = 2 -> usable (Array t s).
Proof. split; auto. Qed.

Lemma call_matrices os k vs w : In (os, k) matrix_functions -> length vs = k -> (0 < k)%nat ->
  Forall (fun v => usable v /\ array_of (real_dtype w) v) vs -> call os vs = Ok (1, w).
Proof.
  intros I L K F. destruct (dispatch_matrix_functions ti ai os k vs I) as (D & S & _).
  assert (U : Forall usable vs) by (revert F; apply Forall_impl; tauto).
  destruct w.
  - apply S; auto. intros G. destruct vs as [| v vs]; [cbn in L; lia |]. inversion F; inversion G; subst.
    destruct H1 as [_ H1]. exact (exclusive v H1 H5).
  - apply D; auto. revert F. apply Forall_impl. tauto.
Qed.

Lemma svc_errors w n d i bias :
  small_int i \/ (exists z, i = Scalar Int64 (Some z) /\ (0 <= z < 2 ^ 32)%Z) -> length bias = 1 \/ length bias = 2 ->
  call calculate_error (svc_error w n d i bias) = Ok (1, Single).
Proof.
  intros I B. unfold dispatch, first_match, calculate_error, both, plain, svc_error, reals, ints.
  cbn [find params variadic variant wide accepts].
  assert (V : forall w', load ti ai false (vector w') (Array Boolean [n]) = false) by (intros []; reflexivity).
  rewrite !V.
  assert (L : load ti ai true (CUInt 32) i = true).
  { destruct I as [I | (z & -> & H)]; [now apply load_small |]. cbn. unfold in_range.
    now rewrite andb_true_iff, Z.leb_le, Z.ltb_lt. }
  rewrite L.
  assert (M : load ti ai true (matrix Single) (Array (real_dtype w) bias) = true)
    by (apply load_matrix_convert, usable_array; exact B).
  rewrite M. destruct w; reflexivity.
Qed.
Lemma svc_clips w t low high : numeric_dtype t = true -> call clip_alpha (svc_clip w t low high) = Ok (1, Single).
Proof.
  intros T. apply (dispatch_three ti ai).
  - split; [exact T | reflexivity].
  - destruct w; reflexivity.
  - destruct w; reflexivity.
  - intros ([z E] & _). discriminate.
Qed.
Lemma svc_second_from_cache w n whole : call select_second_alpha (svc_second_cached w n whole) = Ok (1, w).
Proof. destruct w; reflexivity. Qed.
Lemma svc_second_from_matrix w t n : call select_second_alpha (svc_second_computed w t n) = Ok (1, Single).
Proof. destruct w, t; reflexivity. Qed.

Lemma round_losses w t p l : numeric_dtype t = true -> (length p = 1 \/ length p = 2) -> (length l = 1 \/ length l = 2) ->
  call loss (round_values w t p l) = Ok (1, Single) /\ call metric (round_values w t p l) = Ok (1, Single).
Proof.
  intros T P L. unfold round_values.
  assert (U : usable (Array t p)) by (now apply usable_of).
  assert (V : usable (ints w l)) by (apply usable_of; [destruct w; reflexivity | exact L]).
  assert (N : ~ array_of Float64 (ints w l)) by (destruct w; intros [s E]; discriminate).
  split.
  - apply (dispatch_loss ti ai); tauto.
  - apply (dispatch_matrix_functions ti ai metric 2).
    + cbn. tauto.
    + reflexivity.
    + constructor; [exact U | constructor; [exact V | constructor]].
    + intros F. inversion F as [| ? ? ? F']. inversion F'; subst. auto.
Qed.
Lemma round_likelihoods w t l b x : numeric_dtype t = true -> (length l = 1 \/ length l = 2) -> (length b = 1 \/ length b = 2) ->
  call loss (round_likelihood w t l b x) = Ok (1, Single).
Proof.
  intros T L B. unfold round_likelihood.
  assert (U : usable (Array t b)) by (now apply usable_of).
  assert (V : usable (ints w l)) by (apply usable_of; [destruct w; reflexivity | exact L]).
  assert (N : ~ array_of Float64 (ints w l)) by (destruct w; intros [s E]; discriminate).
  apply (dispatch_loss ti ai); tauto.
Qed.

Lemma in_range_small z : (0 <= z < 2 ^ 32)%Z -> in_range 0 (2 ^ 32) z = true /\ in_range 0 (2 ^ 64) z = true.
Proof.
  intros H. unfold in_range. rewrite !andb_true_iff, !Z.leb_le, !Z.ltb_lt.
  assert (2 ^ 32 < 2 ^ 64)%Z by reflexivity. lia.
Qed.
Lemma kmeans_random w n d k number : (0 <= k < 2 ^ 32)%Z ->
  call init_centroids (kmeans_init w n d k (Text number)) = Ok (1, w).
Proof.
  intros K. apply in_range_small in K as [K K']. unfold dispatch, first_match, init_centroids, plain, kmeans_init, reals.
  cbn [find params variadic variant wide accepts]. cbn [load load_int]. rewrite K, K'. destruct w; reflexivity.
Qed.
Lemma kmeans_list w n d k s : (0 <= k < 2 ^ 32)%Z -> length s = 1 \/ length s = 2 ->
  call init_centroids (kmeans_init w n d k (Sequence s true)) = Ok (2, Single).
Proof.
  intros K S. apply in_range_small in K as [K K']. unfold dispatch, first_match, init_centroids, plain, kmeans_init, reals.
  cbn [find params variadic variant wide accepts].
  assert (M : load ti ai true (matrix Single) (Sequence s true) = true) by (apply load_matrix_convert; split; auto).
  rewrite M. cbn [load load_int exactly orb andb matrix]. rewrite K, K'. destruct w; reflexivity.
Qed.
Lemma kmeans_array w n d k s : (0 <= k < 2 ^ 32)%Z -> length s = 1 \/ length s = 2 ->
  call init_centroids (kmeans_init w n d k (reals w s)) = Ok (2, w).
Proof.
  intros K S. apply in_range_small in K as [K K']. unfold dispatch, first_match, init_centroids, plain, kmeans_init, reals.
  cbn [find params variadic variant wide accepts].
  assert (M : load ti ai false (matrix w) (Array (real_dtype w) s) = true).
  { apply load_matrix_strict. split; [now apply usable_array | now exists s]. }
  destruct w; rewrite M; cbn [load load_int exactly orb andb matrix]; rewrite ?K, ?K'; reflexivity.
Qed.
Lemma kmeans_stop w t k d : numeric_dtype t = true -> call compare_differences (kmeans_moved w t k d PyFloat) = Ok (1, Single).
Proof.
  intros T. unfold kmeans_moved. rewrite compare_passes. apply compare_usable_single; cbn; auto.
  - intros [z E]. discriminate.
  - split; [destruct w; reflexivity | auto].
Qed.
Lemma kmeans_centroids w n d : call calculate_centroids (kmeans_means w n d) = Ok (1, w).
Proof.
  unfold kmeans_means. rewrite dispatch_centroids.
  - destruct w; reflexivity.
  - apply usable_array. auto.
  - exists n. auto.
Qed.

Lemma prior_boolean w n s : (Z.of_nat n < 2 ^ 32)%Z -> boolean s -> call get_prior_probability (bayes_prior w n s) = Ok (1, w).
Proof.
  intros N B. assert (K := in_range_small (Z.of_nat n) ltac:(lia)). destruct K as [K _].
  apply (load_bool_strict ti ai) in B. unfold dispatch, first_match, get_prior_probability, both, plain, bayes_prior, ints.
  cbn [find params variadic variant wide accepts]. rewrite B. cbn [load load_int]. rewrite K. destruct w; reflexivity.
Qed.
Lemma prior_none w n : (Z.of_nat n < 2 ^ 32)%Z -> call get_prior_probability (bayes_prior w n Nothing) = Ok (1, Single).
Proof.
  intros N. assert (K := in_range_small (Z.of_nat n) ltac:(lia)). destruct K as [K _].
  unfold dispatch, first_match, get_prior_probability, both, plain, bayes_prior, ints.
  cbn [find params variadic variant wide accepts load load_int]. rewrite K. destruct w; reflexivity.
Qed.
Lemma bayes_double c a v s : call get_conditional_probability (bayes_discrete Double c a v s) = Err TypeError.
Proof. apply counts_floats. right. eexists. split; [now left |]. eexists. reflexivity. Qed.
Lemma bayes_single c a v s : (Z.of_nat c < 2 ^ 32)%Z -> (Z.of_nat a < 2 ^ 32)%Z -> (Z.of_nat v < 2 ^ 32)%Z -> boolean s \/ s = Nothing ->
  call get_conditional_probability (bayes_discrete Single c a v s) = Ok (1, Single).
Proof.
  intros C A V S.
  destruct (in_range_small (Z.of_nat c) ltac:(lia)) as [C' _]. destruct (in_range_small (Z.of_nat a) ltac:(lia)) as [A' _].
  destruct (in_range_small (Z.of_nat v) ltac:(lia)) as [V' _].
  unfold dispatch, first_match, get_conditional_probability, plain, bayes_discrete, real_number.
  cbn [find params variadic variant wide accepts load load_int real_dtype integer_dtype orb andb].
  rewrite C', A', V', andb_false_r. cbn [andb].
  destruct ti, S as [[[b ->] | [z ->]] | ->]; reflexivity.
Qed.
Lemma super_parent_single w c a v s : (Z.of_nat c < 2 ^ 32)%Z -> (Z.of_nat a < 2 ^ 32)%Z -> (Z.of_nat v < 2 ^ 32)%Z ->
  boolean s \/ s = Nothing ->
  call get_conditional_probability (super_parent_discrete w c a v s) = Ok (1, Single).
Proof.
  intros C A V S.
  destruct (in_range_small (Z.of_nat c) ltac:(lia)) as [C' _]. destruct (in_range_small (Z.of_nat a) ltac:(lia)) as [A' _].
  destruct (in_range_small (Z.of_nat v) ltac:(lia)) as [V' _].
  unfold dispatch, first_match, get_conditional_probability, plain, super_parent_discrete, int_number.
  cbn [find params variadic variant wide accepts load load_int].
  destruct w; cbn [int_dtype]; rewrite C', A', V'; cbn [integer_dtype]; destruct ti, S as [[[b ->] | [z ->]] | ->]; reflexivity.
Qed.

Lemma lda_call w n0 n1 d : call get_within_class_scatter_matrix (lda_scatter w n0 n1 d) = Ok (1, w).
Proof.
  apply call_matrices with (k := 4); [cbn; tauto | reflexivity | lia |].
  repeat constructor; try (apply usable_array; now right); try (eexists; reflexivity); cbn; auto; destruct w; reflexivity.
Qed.
Lemma bagging_call w n d seed : plain_seed seed -> call bootstrap_sampling (bagging_sample w n d seed) = Ok (1, w).
Proof.
  intros S. unfold bagging_sample. rewrite (bootstrap_shape _ _ _ _ _ S). destruct w; reflexivity.
Qed.
Lemma logistic_call w d : call initializer (logistic_start w d) = Ok (1, w).
Proof. destruct w; reflexivity. Qed.
Lemma network_call w n : arrays_as_ints ai -> call initializer (network_start w n) = Ok (2, w).
Proof.
  intros H. unfold dispatch, first_match, initializer, plain, network_start, ints.
  cbn [find params variadic variant wide accepts load load_int].
  destruct (ai false (int_dtype w) [n]) eqn:E.
  - apply H in E as [_ E]. specialize (E eq_refl). discriminate.
  - destruct w; reflexivity.
Qed.
Lemma rbf_call h : (- 2 ^ 31 <= h < 2 ^ 31)%Z -> call rbf_initializer (rbf_start h) = Ok (1, Single).
Proof.
  intros H. unfold dispatch, first_match, rbf_initializer, plain, rbf_start.
  cbn [find params variadic variant wide accepts load load_int].
  assert (R : in_range (- 2 ^ (32 - 1)) (2 ^ (32 - 1)) h = true).
  { unfold in_range. rewrite andb_true_iff, Z.leb_le, Z.ltb_lt. exact H. }
  rewrite R. reflexivity.
Qed.
Lemma kmeans_same w n d k : call calculate_euclidean_distance (kmeans_distances w (real_dtype w) n d k) = Ok (1, w).
Proof. destruct w; reflexivity. Qed.
Lemma kmeans_other w t n d k : numeric_dtype t = true -> t <> real_dtype w ->
  call calculate_euclidean_distance (kmeans_distances w t n d k) = Ok (1, Single).
Proof.
  intros T N. destruct w, t; try reflexivity; try (now destruct N); cbn in T; try discriminate; subst; reflexivity.
Qed.
Lemma initializer_kinds n z : arrays_as_ints ai ->
  call initializer [Scalar Int32 (Some z)] = Ok (1, Single) /\
  call initializer [Scalar Int64 (Some z)] = Ok (1, Double) /\
  ((- 2 ^ 31 <= z < 2 ^ 31)%Z -> call initializer [PyInt z] = Ok (1, Single)) /\
  (~ (- 2 ^ 31 <= z < 2 ^ 31)%Z -> call initializer [PyInt z] = Err TypeError) /\
  call initializer [PyFloat] = Err TypeError /\
  call initializer [Array Int32 [n]] = Ok (2, Single) /\
  call initializer [Array Int64 [n]] = Ok (2, Double) /\
  call initializer [Sequence [n] true] = Ok (2, Single).
Proof.
  intros H.
  assert (R : in_range (- 2 ^ (32 - 1)) (2 ^ (32 - 1)) z = true <-> (- 2 ^ 31 <= z < 2 ^ 31)%Z).
  { unfold in_range. rewrite andb_true_iff, Z.leb_le, Z.ltb_lt. reflexivity. }
  assert (P : call initializer [PyInt z] = if in_range (- 2 ^ (32 - 1)) (2 ^ (32 - 1)) z then Ok (1, Single) else Err TypeError).
  { unfold dispatch, first_match, initializer, plain. cbn [find params variadic variant wide accepts load load_int].
    destruct (in_range _ _ z); reflexivity. }
  split; [reflexivity |]. split; [reflexivity |].
  split. { intros I. rewrite P. apply R in I. now rewrite I. }
  split. { intros I. rewrite P. destruct (in_range _ _ z); [| reflexivity]. destruct I. now apply R. }
  split; [reflexivity |].
  split; [apply (network_call Single n H) |]. split; [apply (network_call Double n H) | reflexivity].
Qed.
End Calls.

(** Rounding to single precision. *)
Local Open Scope R_scope.
Lemma int_exact z : (Z.abs z <= 2 ^ 24)%Z -> rnd f32 (IZR z) = IZR z.
Proof.
  intros H. apply Float.rnd_id.
  assert (C : (Z.abs z < 2 ^ 24 \/ z = 2 ^ 24 \/ z = - 2 ^ 24)%Z) by lia.
  assert (G : forall m e, (Z.abs m < 2 ^ 24)%Z -> (0 <= e)%Z -> generic_format radix2 (fexp f32) (IZR m * bpow radix2 e)).
  { intros m e M E. apply Float.format_int; cbn; [exact M | lia]. }
  destruct C as [C | [-> | ->]].
  - replace (IZR z) with (IZR z * bpow radix2 0) by (cbn; lra). apply G; lia.
  - replace (IZR (2 ^ 24)) with (IZR 1 * bpow radix2 24); [apply G; lia | cbn; lra].
  - replace (IZR (- 2 ^ 24)) with (IZR (-1) * bpow radix2 24); [apply G; lia | cbn; lra].
Qed.
Lemma int_collapses : rnd f32 (IZR (2 ^ 25 + 1)) = IZR (2 ^ 25).
Proof.
  assert (E : IZR (2 ^ 25) = bpow radix2 25) by (cbn; lra).
  assert (F : generic_format radix2 (fexp f32) (IZR (2 ^ 25))) by (rewrite E; apply (Float.format_bpow f32 Float.good32); cbn; lia).
  apply Rle_antisym.
  - apply (Float.rnd_below f32 Float.good32); [exact F |].
    rewrite succ_eq_pos by (apply IZR_le; lia).
    assert (U : ulp radix2 (fexp f32) (IZR (2 ^ 25)) = 4) by (rewrite E, ulp_bpow; cbn; lra).
    rewrite U.
    assert (E2 : IZR (2 ^ 25) = 33554432) by reflexivity. assert (E3 : IZR (2 ^ 25 + 1) = 33554433) by reflexivity.
    rewrite E2, E3. lra.
  - rewrite <- (Float.rnd_id f32 _ F) at 1. apply (Float.rnd_mono f32 Float.good32). apply IZR_le. lia.
Qed.
Lemma int_kept : rnd f32 (IZR (2 ^ 25)) = IZR (2 ^ 25).
Proof.
  apply Float.rnd_id. assert (E : IZR (2 ^ 25) = bpow radix2 25) by (cbn; lra). rewrite E.
  apply (Float.format_bpow f32 Float.good32). cbn. lia.
Qed.
Lemma one_by_one (a b : Cpp.mat) tol u v : Cpp.nrow a = 1%nat -> Cpp.ncol a = 1%nat -> Cpp.coef a 0 0 = u -> Cpp.coef b 0 0 = v ->
  Cpp.coef (Cpp.euclidean_distance a b) 0 0 = sqrt (0 + (u - v) ^ 2) /\
  Cpp.compare_differences1 a b tol = [Rltb tol (if Rltb (Rabs (u - v)) (Rabs (u - v)) then Rabs (u - v) else Rabs (u - v))].
Proof.
  intros R C <- <-. unfold Cpp.compare_differences1, Cpp.euclidean_distance. rewrite R, C. split; reflexivity.
Qed.
Lemma collapsed_points :
  let a := Cpp.to_mat 1 [[IZR (2 ^ 25 + 1)]] in
  let b := Cpp.to_mat 1 [[IZR (2 ^ 25)]] in
  let single m := {| Cpp.nrow := Cpp.nrow m; Cpp.ncol := Cpp.ncol m; Cpp.coef := fun i j => rnd f32 (Cpp.coef m i j) |} in
  Cpp.coef (Cpp.euclidean_distance a b) 0 0 = 1 /\
  Cpp.coef (Cpp.euclidean_distance (single a) (single b)) 0 0 = 0 /\
  Cpp.compare_differences1 a b (1 / 1000000) = [true] /\
  Cpp.compare_differences1 (single a) (single b) (1 / 1000000) = [false].
Proof.
  intros a b single.
  assert (D : IZR (2 ^ 25 + 1) - IZR (2 ^ 25) = 1) by (rewrite <- minus_IZR; reflexivity).
  assert (Z : IZR (2 ^ 25) - IZR (2 ^ 25) = 0) by (rewrite <- minus_IZR; reflexivity).
  destruct (one_by_one a b (1 / 1000000) (IZR (2 ^ 25 + 1)) (IZR (2 ^ 25)) eq_refl eq_refl eq_refl eq_refl) as [E F].
  destruct (one_by_one (single a) (single b) (1 / 1000000) _ _ eq_refl eq_refl int_collapses int_kept) as [E' F'].
  rewrite E, F, E', F', D, Z.
  rewrite Rabs_R1, Rabs_R0. split; [| split; [| split]].
  - replace (0 + 1 ^ 2) with 1 by ring. apply sqrt_1.
  - replace (0 + 0 ^ 2) with 0 by ring. apply sqrt_0.
  - f_equal. destruct (Rltb 1 1); apply Rltb_true; lra.
  - f_equal. destruct (Rltb 0 0); apply Rltb_false; lra.
Qed.
