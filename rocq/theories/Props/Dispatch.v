(** C101 and C102: which compiled variant a call reaches, in which precision it
    computes, and what that means for the models. *)
From Coq Require Import List ZArith Bool Arith Lia Reals Lra.
From Verif.Model Require Import Base Dispatch.
From Verif.Model Require Float Cpp KMeans.
From Verif.Spec Require Import Dispatch.
From Verif.Proof Require Import BaseLemmas Dispatch DispatchCalls.
Import ListNotations.

(** ** C101: calls made by a user *)
(** Activations, distances, clusters, means, kernels, metrics and scatter matrices
    compute in double precision exactly if every argument is an array of 64 bit floats.
    One other argument, such as a list or an array of integers, and everything is
    converted to single precision. What numpy cannot turn into matrices is refused. *)
Theorem C101_matrix_functions ti ai os k vs : In (os, k) matrix_functions ->
  (length vs = k -> Forall usable vs -> Forall (array_of Float64) vs -> dispatch ti ai os vs = Ok (1, Double)) /\
  (length vs = k -> Forall usable vs -> ~ Forall (array_of Float64) vs -> dispatch ti ai os vs = Ok (1, Single)) /\
  (length vs <> k \/ ~ Forall usable vs -> dispatch ti ai os vs = Err TypeError).
Proof. apply dispatch_matrix_functions. Qed.
Print Assumptions C101_matrix_functions.
Example C101_matrix_functions_witness ti ai :
  dispatch ti ai kernel [Array Float64 [5; 2]; Array Float64 [2]] = Ok (1, Double) /\
  dispatch ti ai kernel [Array Float64 [5; 2]; Array Float32 [2]] = Ok (1, Single) /\
  dispatch ti ai kernel [Array Float64 [5; 2]; Sequence [1; 2] true] = Ok (1, Single) /\
  dispatch ti ai kernel [Array Float64 [5; 2]; PyFloat] = Err TypeError /\
  dispatch ti ai kernel [Array Float64 [5; 2; 2]; Array Float64 [5; 2; 2]] = Err TypeError /\
  dispatch ti ai kernel [Array Float64 [5; 2]] = Err TypeError.
Proof. repeat split. Qed.

(** The losses do the same with their first two arguments, whatever follows them. *)
Theorem C101_losses ti ai a b more :
  (usable a -> usable b -> array_of Float64 a -> array_of Float64 b ->
   dispatch ti ai loss (a :: b :: more) = Ok (1, Double)) /\
  (usable a -> usable b -> ~ (array_of Float64 a /\ array_of Float64 b) ->
   dispatch ti ai loss (a :: b :: more) = Ok (1, Single)) /\
  (~ usable a \/ ~ usable b -> dispatch ti ai loss (a :: b :: more) = Err TypeError).
Proof. apply dispatch_loss. Qed.
Print Assumptions C101_losses.
Theorem C101_losses_need_two ti ai vs : (length vs < 2)%nat -> dispatch ti ai loss vs = Err TypeError.
Proof. apply dispatch_loss_short. Qed.
Print Assumptions C101_losses_need_two.
Example C101_losses_witness ti ai :
  dispatch ti ai loss [Array Float64 [5; 1]; Array Float64 [5; 1]; Object] = Ok (1, Double) /\
  dispatch ti ai loss [Array Float64 [5; 1]; Array Int64 [5; 1]] = Ok (1, Single) /\
  dispatch ti ai loss [Array Float64 [5; 1]; Nothing] = Err TypeError.
Proof. repeat split. Qed.

(** Bootstrap samples: variant 1 returns samples and labels, variant 2 samples only.
    Data of floats get their labels back only if these are floats or integers of the
    same number of bits; with any other labels the labels are silently left out. Data
    of any other dtype are converted to single precision. *)
Theorem C101_bootstrap ti ai x y seed : plain_seed seed ->
  (~ usable x -> dispatch ti ai bootstrap_sampling [x; y; seed] = Err TypeError) /\
  (usable x -> array_of Float32 x ->
   dispatch ti ai bootstrap_sampling [x; y; seed] = Ok (1, Single) /\ usable y /\ (array_of Float32 y \/ array_of Int32 y) \/
   dispatch ti ai bootstrap_sampling [x; y; seed] = Ok (2, Single) /\ ~ (usable y /\ (array_of Float32 y \/ array_of Int32 y))) /\
  (usable x -> array_of Float64 x ->
   dispatch ti ai bootstrap_sampling [x; y; seed] = Ok (1, Double) /\ usable y /\ (array_of Float64 y \/ array_of Int64 y) \/
   dispatch ti ai bootstrap_sampling [x; y; seed] = Ok (2, Double) /\ ~ (usable y /\ (array_of Float64 y \/ array_of Int64 y))) /\
  (usable x -> ~ array_of Float32 x -> ~ array_of Float64 x ->
   dispatch ti ai bootstrap_sampling [x; y; seed] = Ok (1, Single) /\ usable y \/
   dispatch ti ai bootstrap_sampling [x; y; seed] = Ok (2, Single) /\ ~ usable y).
Proof. apply dispatch_bootstrap. Qed.
Print Assumptions C101_bootstrap.
Example C101_bootstrap_witness ti ai :
  dispatch ti ai bootstrap_sampling [Array Float64 [5; 2]; Array Int64 [5]; Nothing] = Ok (1, Double) /\
  dispatch ti ai bootstrap_sampling [Array Float64 [5; 2]; Array Int32 [5]; PyInt 3] = Ok (2, Double) /\
  dispatch ti ai bootstrap_sampling [Array Float32 [5; 2]; Sequence [5] true; PyInt 3] = Ok (2, Single) /\
  dispatch ti ai bootstrap_sampling [Array Int64 [5; 2]; Array Int64 [5]; Nothing] = Ok (1, Single).
Proof. repeat split. Qed.

(** Clipping and the density of the normal distribution: double precision exactly for
    three 64 bit numpy floats; Python floats are taken as single precision. *)
Theorem C101_three_numbers ti ai os a b c : os = clip_alpha \/ os = get_probability_density ->
  (scalar_of Float64 a -> scalar_of Float64 b -> scalar_of Float64 c -> dispatch ti ai os [a; b; c] = Ok (1, Double)) /\
  (number a -> number b -> number c -> ~ (scalar_of Float64 a /\ scalar_of Float64 b /\ scalar_of Float64 c) ->
   dispatch ti ai os [a; b; c] = Ok (1, Single)) /\
  (~ (number a /\ number b /\ number c) -> dispatch ti ai os [a; b; c] = Err TypeError).
Proof. intros [-> | ->]; apply dispatch_three. Qed.
Print Assumptions C101_three_numbers.
Example C101_three_numbers_witness ti ai :
  dispatch ti ai clip_alpha [Scalar Float64 None; Scalar Float64 None; Scalar Float64 None] = Ok (1, Double) /\
  dispatch ti ai clip_alpha [PyFloat; PyFloat; PyFloat] = Ok (1, Single) /\
  dispatch ti ai get_probability_density [Scalar Float64 None; PyInt 0; PyInt 1] = Ok (1, Single) /\
  dispatch ti ai get_probability_density [Nothing; PyInt 0; PyInt 1] = Err TypeError.
Proof. repeat split. Qed.

(** The comparison of arrays: the tolerance decides. With a 64 bit numpy float arrays
    are compared in double precision, unless both are of 32 bit floats; with any other
    number, a Python float among them, in single precision. Variant 1 compares
    matrices and variant 2 anything else numpy makes arrays of. *)
Theorem C101_compare_differences ti ai a b tol :
  let call := dispatch ti ai compare_differences [a; b; tol] in
  (number tol -> ~ scalar_of Float64 tol -> usable a -> usable b -> call = Ok (1, Single)) /\
  (number tol -> ~ scalar_of Float64 tol -> fillable a -> fillable b -> ~ (usable a /\ usable b) -> call = Ok (2, Single)) /\
  (scalar_of Float64 tol -> ~ (array_of Float32 a /\ array_of Float32 b) -> usable a -> usable b -> call = Ok (1, Double)) /\
  (scalar_of Float64 tol -> ~ (array_of Float32 a /\ array_of Float32 b) -> fillable a -> fillable b ->
   ~ (usable a /\ usable b) -> call = Ok (2, Double)) /\
  (scalar_of Float64 tol -> array_of Float32 a -> array_of Float32 b -> exists k, call = Ok (k, Single)) /\
  (~ number tol \/ ~ fillable a \/ ~ fillable b -> call = Err TypeError).
Proof.
  cbv zeta. rewrite compare_passes.
  split; [apply compare_usable_single |]. split; [apply compare_filled_single |]. split; [apply compare_usable_double |].
  split; [apply compare_filled_double |]. split; [apply compare_single_arrays | apply compare_refused].
Qed.
Print Assumptions C101_compare_differences.
Example C101_compare_differences_witness ti ai :
  dispatch ti ai compare_differences [Array Float64 [3; 2]; Array Float64 [3; 2]; PyFloat] = Ok (1, Single) /\
  dispatch ti ai compare_differences [Array Float64 [3; 2]; Array Float64 [3; 2]; Scalar Float64 None] = Ok (1, Double) /\
  dispatch ti ai compare_differences [Array Float64 [3; 2; 2]; Array Float64 [3; 2; 2]; Scalar Float64 None] = Ok (2, Double) /\
  dispatch ti ai compare_differences [Array Float64 [3; 2; 2]; Array Float64 [3; 2; 2]; PyFloat] = Ok (2, Single) /\
  dispatch ti ai compare_differences [Array Float32 [3; 2]; Array Float32 [3; 2]; Scalar Float64 None] = Ok (1, Single).
Proof. repeat split. Qed.

(** Centroids: with clusters of 32 bit integers the data decide; with 64 bit ones, the
    integers numpy makes by default, even 64 bit data are converted. *)
Theorem C101_centroids ti ai x n s c : usable x -> s = [n] \/ s = [1; n] ->
  (c = Int32 -> dispatch ti ai calculate_centroids [x; Array c s] = Ok (1, match x with Array Float64 _ => Double | _ => Single end)) /\
  (c = Int64 -> dispatch ti ai calculate_centroids [x; Array c s] = Ok (1, Single)).
Proof.
  intros U S. split; intros ->.
  - apply dispatch_centroids; [exact U |]. exists n. destruct S as [-> | ->]; auto.
  - apply dispatch_centroids_other; [exact U | destruct S as [-> | ->]; reflexivity |]. intros [z E]. discriminate.
Qed.
Print Assumptions C101_centroids.
Example C101_centroids_witness ti ai :
  dispatch ti ai calculate_centroids [Array Float64 [5; 2]; Array Int32 [1; 5]] = Ok (1, Double) /\
  dispatch ti ai calculate_centroids [Array Float64 [5; 2]; Array Int64 [5]] = Ok (1, Single).
Proof. split; reflexivity. Qed.

(** Counts of the Bayes classifiers: floats are refused although they are whole, and
    Python integers give single precision. *)
Theorem C101_counts ti ai a b c s :
  (In PyFloat [a; b; c] \/ (exists v, In v [a; b; c] /\ scalar_of Float64 v) ->
   dispatch ti ai get_conditional_probability [a; b; c; s] = Err TypeError) /\
  (small_int a -> small_int b -> small_int c -> boolean s \/ s = Nothing ->
   dispatch ti ai get_conditional_probability [a; b; c; s] = Ok (1, Single)).
Proof.
  split; [apply counts_floats |]. intros A B C S. apply counts_python; auto.
  destruct S as [[[z ->] | [z ->]] | ->]; reflexivity.
Qed.
Print Assumptions C101_counts.
Example C101_counts_witness ti ai :
  dispatch ti ai get_conditional_probability [Scalar Float64 (Some 3%Z); PyInt 5; PyInt 2; PyBool true] = Err TypeError /\
  dispatch ti ai get_conditional_probability [PyInt 3; PyInt 5; PyInt 2; PyBool true] = Ok (1, Single).
Proof. split; reflexivity. Qed.

(** Initializers: the kind of the number of attributes or of the list of layers decides
    the precision of the weights. *)
Theorem C101_initializers ti ai n z : arrays_as_ints ai ->
  dispatch ti ai initializer [Scalar Int32 (Some z)] = Ok (1, Single) /\
  dispatch ti ai initializer [Scalar Int64 (Some z)] = Ok (1, Double) /\
  ((- 2 ^ 31 <= z < 2 ^ 31)%Z -> dispatch ti ai initializer [PyInt z] = Ok (1, Single)) /\
  (~ (- 2 ^ 31 <= z < 2 ^ 31)%Z -> dispatch ti ai initializer [PyInt z] = Err TypeError) /\
  dispatch ti ai initializer [PyFloat] = Err TypeError /\
  dispatch ti ai initializer [Array Int32 [n]] = Ok (2, Single) /\
  dispatch ti ai initializer [Array Int64 [n]] = Ok (2, Double) /\
  dispatch ti ai initializer [Sequence [n] true] = Ok (2, Single).
Proof. apply initializer_kinds. Qed.
Print Assumptions C101_initializers.
Example C101_initializers_witness ti :
  arrays_as_ints (fun convert _ s => if convert then (size s =? 1) else match s with [] => true | _ => false end) /\
  dispatch ti (fun _ _ _ => false) initializer [PyInt (2 ^ 31)] = Err TypeError.
Proof.
  split; [| reflexivity]. intros [] t s H.
  - apply Nat.eqb_eq in H. split; [exact H | discriminate].
  - destruct s; [split; reflexivity | discriminate].
Qed.

(** What single precision does to integers: up to 2^24 they are kept, but above it
    different ones become equal, and so the compiled distance of different points
    given as integers is 0. *)
Theorem C101_integers_in_single :
  (forall z, (Z.abs z <= 2 ^ 24)%Z -> Float.rnd Float.f32 (IZR z) = IZR z) /\
  (let a := Cpp.to_mat 1 [[IZR (2 ^ 25 + 1)]] in
   let b := Cpp.to_mat 1 [[IZR (2 ^ 25)]] in
   let single m := {| Cpp.nrow := Cpp.nrow m; Cpp.ncol := Cpp.ncol m;
                      Cpp.coef := fun i j => Float.rnd Float.f32 (Cpp.coef m i j) |} in
   Cpp.coef (Cpp.euclidean_distance a b) 0 0 = 1%R /\
   Cpp.coef (Cpp.euclidean_distance (single a) (single b)) 0 0 = 0%R /\
   Cpp.compare_differences1 a b (1 / 1000000) = [true] /\
   Cpp.compare_differences1 (single a) (single b) (1 / 1000000) = [false]).
Proof. split; [apply int_exact | apply collapsed_points]. Qed.
Print Assumptions C101_integers_in_single.

(** ** C102: calls made by the models *)
(** The support vector classifier: at either precision the violations of the samples
    and the clipping are computed in single precision, because the labels are integers
    and the step is an array without dimensions. The second multiplier is chosen in the
    precision of the settings if the violation is a cached one, otherwise in single
    precision. *)
Theorem C102_support_vectors ti ai w w' t n d i bias low high whole :
  small_int i \/ (exists z, i = Scalar Int64 (Some z) /\ (0 <= z < 2 ^ 32)%Z) ->
  length bias = 1 \/ length bias = 2 -> numeric_dtype t = true ->
  dispatch ti ai calculate_error (svc_error w n d i bias) = Ok (1, Single) /\
  dispatch ti ai clip_alpha (svc_clip w t low high) = Ok (1, Single) /\
  dispatch ti ai select_second_alpha (svc_second_cached w n whole) = Ok (1, w) /\
  dispatch ti ai select_second_alpha (svc_second_computed w w' n) = Ok (1, Single).
Proof.
  intros I B T. split; [now apply svc_errors |]. split; [now apply svc_clips |].
  split; [apply svc_second_from_cache | apply svc_second_from_matrix].
Qed.
Print Assumptions C102_support_vectors.
Example C102_support_vectors_witness : (small_int (PyInt 3) /\ length [1; 1] = 2)%nat.
Proof. split; [exists 3%Z; split; [reflexivity | lia] | reflexivity]. Qed.

(** Networks and logistic regression: the loss and the metric reported for a round
    come from single precision at either precision, because the labels are integers;
    the weights themselves have the precision of the settings, except those of the
    radial basis network. *)
Theorem C102_rounds ti ai w t p l b x : numeric_dtype t = true ->
  (length p = 1 \/ length p = 2) -> (length l = 1 \/ length l = 2) -> (length b = 1 \/ length b = 2) ->
  dispatch ti ai loss (round_values w t p l) = Ok (1, Single) /\
  dispatch ti ai metric (round_values w t p l) = Ok (1, Single) /\
  dispatch ti ai loss (round_likelihood w t l b x) = Ok (1, Single).
Proof.
  intros T P L B. destruct (round_losses ti ai w t p l T P L) as [E F].
  split; [exact E |]. split; [exact F |]. now apply round_likelihoods.
Qed.
Print Assumptions C102_rounds.
Theorem C102_starts ti ai w d n h : arrays_as_ints ai -> (- 2 ^ 31 <= h < 2 ^ 31)%Z ->
  dispatch ti ai initializer (logistic_start w d) = Ok (1, w) /\
  dispatch ti ai initializer (network_start w n) = Ok (2, w) /\
  dispatch ti ai rbf_initializer (rbf_start h) = Ok (1, Single).
Proof. intros A H. split; [apply logistic_call |]. split; [now apply network_call | now apply rbf_call]. Qed.
Print Assumptions C102_starts.
Example C102_rounds_witness ti ai :
  dispatch ti ai loss (round_values Double Float64 [5; 1] [5; 1]) = Ok (1, Single) /\
  dispatch ti (fun _ _ _ => false) initializer (network_start Double 3) = Ok (2, Double).
Proof. split; reflexivity. Qed.

(** k-means: random starts and starts given as an array of the right precision keep the
    precision, a list of starts gives single precision; the means are computed in the
    precision of the data, the distances only if the means have it too; and whether
    the means moved is always decided in single precision, as the tolerance is a
    Python float. *)
Theorem C102_k_means ti ai w t n d k clusters number s : (0 <= clusters < 2 ^ 32)%Z -> numeric_dtype t = true ->
  length s = 1 \/ length s = 2 ->
  dispatch ti ai init_centroids (kmeans_init w n d clusters (Text number)) = Ok (1, w) /\
  dispatch ti ai init_centroids (kmeans_init w n d clusters (reals w s)) = Ok (2, w) /\
  dispatch ti ai init_centroids (kmeans_init w n d clusters (Sequence s true)) = Ok (2, Single) /\
  dispatch ti ai calculate_centroids (kmeans_means w n d) = Ok (1, w) /\
  dispatch ti ai calculate_euclidean_distance (kmeans_distances w (real_dtype w) n d k) = Ok (1, w) /\
  (t <> real_dtype w -> dispatch ti ai calculate_euclidean_distance (kmeans_distances w t n d k) = Ok (1, Single)) /\
  dispatch ti ai compare_differences (kmeans_moved w t k d PyFloat) = Ok (1, Single).
Proof.
  intros C T S. split; [now apply kmeans_random |]. split; [now apply kmeans_array |]. split; [now apply kmeans_list |].
  split; [apply kmeans_centroids |]. split; [apply kmeans_same |]. split; [now apply kmeans_other | now apply kmeans_stop].
Qed.
Print Assumptions C102_k_means.
Example C102_k_means_witness ti ai :
  dispatch ti ai init_centroids (kmeans_init Double 9 2 3 (Text false)) = Ok (1, Double) /\
  dispatch ti ai init_centroids (kmeans_init Double 9 2 3 (Sequence [3; 2] true)) = Ok (2, Single) /\
  dispatch ti ai compare_differences (kmeans_moved Double Float64 3 2 PyFloat) = Ok (1, Single).
Proof. repeat split. Qed.

(** The Bayes classifiers: at double precision the naive one cannot predict with a
    discrete column, since its counts are 64 bit floats, which are refused; at single
    precision it can. The ones with a super parent can at either precision. *)
Theorem C102_bayes ti ai w n c a v s : (Z.of_nat n < 2 ^ 32)%Z ->
  (Z.of_nat c < 2 ^ 32)%Z -> (Z.of_nat a < 2 ^ 32)%Z -> (Z.of_nat v < 2 ^ 32)%Z ->
  (boolean s -> dispatch ti ai get_prior_probability (bayes_prior w n s) = Ok (1, w)) /\
  dispatch ti ai get_prior_probability (bayes_prior w n Nothing) = Ok (1, Single) /\
  dispatch ti ai get_conditional_probability (bayes_discrete Double c a v s) = Err TypeError /\
  (boolean s \/ s = Nothing -> dispatch ti ai get_conditional_probability (bayes_discrete Single c a v s) = Ok (1, Single)) /\
  (boolean s \/ s = Nothing -> dispatch ti ai get_conditional_probability (super_parent_discrete w c a v s) = Ok (1, Single)).
Proof.
  intros N C A V. split; [now apply prior_boolean |]. split; [now apply prior_none |]. split; [apply bayes_double |].
  split; [now apply bayes_single | now apply super_parent_single].
Qed.
Print Assumptions C102_bayes.
Example C102_bayes_witness ti ai :
  dispatch ti ai get_conditional_probability (bayes_discrete Double 3 8 2 (PyBool true)) = Err TypeError /\
  dispatch ti ai get_conditional_probability (bayes_discrete Single 3 8 2 (PyBool true)) = Ok (1, Single).
Proof. split; [reflexivity | destruct ti; reflexivity]. Qed.

(** Linear discriminant analysis and bagging keep the precision of the settings, and
    bagging gets its labels back. *)
Theorem C102_keep_precision ti ai w n0 n1 d seed : plain_seed seed ->
  dispatch ti ai get_within_class_scatter_matrix (lda_scatter w n0 n1 d) = Ok (1, w) /\
  dispatch ti ai bootstrap_sampling (bagging_sample w n0 d seed) = Ok (1, w).
Proof. intros S. split; [apply lda_call | now apply bagging_call]. Qed.
Print Assumptions C102_keep_precision.
Example C102_keep_precision_witness : plain_seed (PyInt 2021) /\ plain_seed Nothing.
Proof. split; [right; exists 2021%Z; split; [reflexivity | lia] | now left]. Qed.
