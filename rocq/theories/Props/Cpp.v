(** C62: the functions of the C++ backend (cc/) against those of the Python
    backend (classicML/backend/python/).  [Value], [Throws] and [Undefined] are
    the ways a C++ call ends; [to_mat d x], [to_row], [to_column] are the Eigen
    matrices made from arrays and [rows] the array made from a matrix. *)
From Coq Require Import List ZArith Reals Bool Arith Lia Lra Permutation Sorted.
From Verif.Spec Require Import Smo Gmm Matrix.
From Verif.Model Require Import Base.
From Verif.Model Require Ops KMeans Gmm Bayes Lda Smo Hull Metrics Activations Kernels.
From Verif.Model Require Import Cpp.
From Verif.Spec Require Import KMeans Cpp.
From Verif.Proof Require Import BaseLemmas Cpp CppOps CppMore.
From Verif.Model Require Hull.
Import ListNotations.
Local Open Scope R_scope.

(** ** Operations that agree *)

(** Distances, cluster numbers, centroids and component means. *)
Theorem C62_clustering : forall d, (0 < d)%nat ->
  (forall x c, rect d x -> rect d c ->
     map (map Some) (rows (euclidean_distance (to_mat d x) (to_mat d c))) = KMeans.calculate_euclidean_distance x (map Some c)) /\
  (forall m, rect d m -> KMeans.get_cluster (map (map Some) m) = Ok (arg_min_rows (to_mat d m))) /\
  (forall x cl, rect d x -> length cl = length x -> centroids (to_mat d x) cl = KMeans.calculate_centroids d x cl) /\
  (forall n x gamma, rect d x -> rect n gamma -> length gamma = length x ->
     numbers_like (means (to_mat d x) (to_mat n gamma)) (Gmm.calculate_means d n x gamma)).
Proof.
  intros d Hd. split; [intros; now apply distances|]. split; [intros; now apply clusters|]. split; [intros; now apply centroids_eq|].
  intros; now apply means_eq.
Qed.
Print Assumptions C62_clustering.
Example C62_clustering_case : rect 2 [[1; 2]; [3; 4]; [0; 1]] /\ length [0; 1; 1]%nat = length [[1; 2]; [3; 4]; [0; 1]].
Proof. split; [repeat constructor|reflexivity]. Qed.

(** Comparing two sets of parameters: some difference is reported by one
    backend iff by the other. *)
Theorem C62_differences : forall d tol,
  (forall c0 c1, (0 < d)%nat -> rect d c0 -> rect d c1 -> length c0 = length c1 ->
     KMeans.compare_differences_any (map Some c0) (map Some c1) tol =
     Ok (existsb (fun b => b) (compare_differences1 (to_mat d c0) (to_mat d c1) tol))) /\
  (forall n (s0 s1 : list (list (list R))), length s0 = n -> length s1 = n ->
     Forall (fun m => length m = d /\ rect d m) s0 -> Forall (fun m => length m = d /\ rect d m) s1 ->
     existsb (existsb (fun b => b)) (compare_differences2 n d (fun i j k => nth k (nth j (nth i s0 []) []) 0)
                                                              (fun i j k => nth k (nth j (nth i s1 []) []) 0) tol) =
     existsb (fun p => existsb (fun q => Gmm.far tol (fst q) (snd q)) (combine (fst p) (snd p))) (combine s0 s1)).
Proof. intros d tol. split; [intros; now apply compare1|intros; now apply compare2]. Qed.
Print Assumptions C62_differences.

(** Bootstrap samples, given the same random numbers. *)
Theorem C62_bootstrap : forall A B draw (x : list (list A)) (y : list (list B)),
  (forall n, Forall (fun i => (i < n)%nat) (draw n)) ->
  ends_like (fun p => (fst p, Some (snd p))) (bootstrap1 draw x y [] []) (Ops.bootstrap_sampling draw (Ops.Mat x) (Some (Ops.Mat y))) /\
  Ops.bootstrap_sampling (B := B) draw (Ops.Mat x) None = Ok (bootstrap2 draw x [], None).
Proof. intros A B draw x y H. split; [now apply bootstrap_eq|now apply bootstrap_eq2]. Qed.
Print Assumptions C62_bootstrap.
Example C62_bootstrap_case : forall n, Forall (fun i => (i < n)%nat) (rev (seq 0 n)).
Proof. intros n. apply Forall_forall. intros i Hi. apply in_rev, in_seq in Hi. lia. Qed.

(** Clipping and the prediction error of the support vector classifier. *)
Theorem C62_multipliers : (forall a low high, clip_alpha a low high = Ops.clip_alpha a low high) /\
  (forall kernel K x y i al flags b, (forall rows r, kernel rows r = map (fun q => K q r) rows) ->
     calculate_error kernel x y i al (map flag flags) b = Smo.calculate_error K x y i al flags b).
Proof. split; [reflexivity|]. intros; now apply error_eq. Qed.
Print Assumptions C62_multipliers.

(** Probabilities of the Bayesian classifiers. *)
Theorem C62_probabilities :
  (forall a b c s, conditional_probability a b c s = Bayes.get_conditional_probability a b c s) /\
  (forall a n k s, (0 < n)%nat -> Bayes.get_dependent_prior_probability a n k s =
     match dependent_prior_probability a n k s with Some p => Ok p | None => Err NotANumber end) /\
  (forall rnd x m v, probability_density rnd x m v = Bayes.get_probability_density rnd x m v) /\
  (forall n y, (0 < n)%nat -> exists p, prior_probability n y false = Some p /\ Bayes.get_prior_probability n y false = Ok p).
Proof. split; [exact conditional|]. split; [exact dependent|]. split; [exact density|exact prior_plain]. Qed.
Print Assumptions C62_probabilities.

(** Projection vector (first version) and scatter matrix.  Eigen's inverse is
    only assumed to be a left inverse. *)
Theorem C62_projection : forall d mu0 mu1, length mu0 = d -> length mu1 = d ->
  (forall inv s w, nrow (inv (to_mat d s)) = d -> ncol (inv (to_mat d s)) = d -> product_is_one d (rows (inv (to_mat d s))) s ->
     Lda.get_w d s mu0 mu1 = Ok w -> exists r, get_w inv (to_mat d s) (to_row mu0) (to_row mu1) = Value r /\ rows r = [w]) /\
  (forall x0 x1, rect d x0 -> rect d x1 -> x0 <> [] -> x1 <> [] ->
     exists m, within_class_scatter (to_mat d x0) (to_mat d x1) (to_row mu0) (to_row mu1) = Value m /\
               rows m = Lda.within_class_scatter d x0 x1 mu0 mu1).
Proof. intros d mu0 mu1 H0 H1. split; [intros; now apply get_w_eq|intros; now apply within_eq]. Qed.
Print Assumptions C62_projection.

(** Hull of points that lie in different directions from the leftmost one;
    [by_slope] is any sort by slope. *)
Theorem C62_hull : forall by_x by_slope points s rest p0, sorts_by_slope by_slope ->
  by_x points = s :: p0 :: rest -> distinct_slopes s (p0 :: rest) ->
  ends_like (fun h => h) (convex_hull by_x by_slope points) (Model.Hull.compute_convex_hull by_x points).
Proof. exact hull_eq. Qed.
Print Assumptions C62_hull.
Example C62_hull_case : distinct_slopes (0, 0) [(1, 0); (1, 1); (0, 1)].
Proof.
  unfold distinct_slopes, slope. cbn [map fst snd].
  rewrite (proj2 (Reqb_false 0 1)) by lra. rewrite (proj2 (Reqb_true 0 0)) by reflexivity.
  repeat constructor; cbn; intros H; repeat destruct H as [H|H]; try discriminate; try injection H; intros; try lra; auto.
Qed.

(** Scores of predictions of the right shape. *)
Theorem C62_metrics :
  (forall p t, length p = length t -> p <> [] ->
     exists v, binary_accuracy (to_column p) (to_column (map IZR t)) = Value (Some v) /\ Metrics.binary_accuracy p t = Ok v) /\
  (forall c p t, (0 < c)%nat -> rect c p -> rect c t -> length p = length t -> p <> [] ->
     exists v, categorical_accuracy (to_mat c p) (to_mat c t) = Value (Some v) /\ Metrics.categorical_accuracy p t = Ok v).
Proof. split; [exact binary_accuracy_eq|exact categorical_accuracy_eq]. Qed.
Print Assumptions C62_metrics.

(** Losses of predictions of the right shape; NaN on one side iff on the
    other. *)
Theorem C62_losses :
  (forall p t, length p = length t ->
     number_like (binary_crossentropy (to_column p) (to_column t)) (Activations.binary_crossentropy p t)) /\
  (forall c p t, rect c p -> rect c t -> length p = length t ->
     number_like (categorical_crossentropy (to_mat c p) (to_mat c t)) (Activations.categorical_crossentropy p t)) /\
  (forall y beta x, rect (length beta) x -> length y = length x ->
     log_likelihood (to_column y) (to_column beta) (to_mat (length beta) x) = Value (Activations.log_likelihood y beta x)) /\
  (forall c p t, rect c p -> rect c t -> length p = length t ->
     number_like (mean_squared_error (to_mat c p) (to_mat c t))
                 (Activations.mean_squared_error (length t) (List.concat p) (List.concat t))).
Proof.
  split; [exact binary_crossentropy_eq|]. split; [exact categorical_crossentropy_eq|]. split; [exact log_likelihood_eq|exact mean_squared_error_eq].
Qed.
Print Assumptions C62_losses.
(** The loss that takes the binary form for one column and the categorical form
    otherwise. *)
Theorem C62_crossentropy : forall c p t, rect c p -> rect c t -> length p = length t ->
  number_like (crossentropy (to_mat c p) (to_mat c t)) (Activations.crossentropy c p t).
Proof. exact crossentropy_eq. Qed.
Print Assumptions C62_crossentropy.

(** Activation functions and their derivatives. *)
Theorem C62_activations : forall c,
  (forall z, rect c z -> rows (relu (to_mat c z)) = Activations.mmap Activations.relu z) /\
  (forall z, rect c z -> rows (sigmoid (to_mat c z)) = Activations.mmap Activations.sigmoid z) /\
  (forall z, rect c z -> z <> [] -> (0 < c)%nat -> exists m, softmax (to_mat c z) = Value m /\ Activations.softmax z = Ok (rows m)) /\
  (forall o a, rect c o -> rect c a -> length o = length a ->
     exists m, relu_diff (to_mat c o) (to_mat c a) = Value m /\ rows m = Activations.mzip Activations.relu_diff o a) /\
  (forall o a, rect c o -> rect c a -> length o = length a ->
     exists m, softmax_diff (to_mat c o) (to_mat c a) = Value m /\ rows m = Activations.mzip Activations.softmax_diff o a) /\
  (forall o a y, rect c o -> rect c a -> rect c y -> length o = length a -> length y = length a ->
     exists m, sigmoid_diff (to_mat c o) (to_mat c a) (to_mat c y) = Value m /\ nrow m = length a /\ ncol m = c /\
       forall i j, coef m i j = Activations.sigmoid_diff (nth j (nth i y []) 0) (nth j (nth i o []) 0) (nth j (nth i a []) 0)).
Proof.
  intros c. split; [intros; now apply relu_eq|]. split; [intros; now apply sigmoid_eq|]. split; [intros; now apply softmax_eq|].
  split; [intros; now apply relu_diff_eq|]. split; [intros; now apply softmax_diff_eq|intros; now apply sigmoid_diff_eq].
Qed.
Print Assumptions C62_activations.

(** Kernels of all rows with one vector, for at least two features. *)
Theorem C62_kernels : forall d x v, (2 <= d)%nat -> rect d x -> x <> [] -> length v = d ->
  (exists m, linear (to_mat d x) (to_row v) = Value m /\ rows m = [map (fun r => Kernels.linear r v) x]) /\
  (forall gamma degree, exists m, polynomial gamma degree (to_mat d x) (to_row v) = Value m /\
     rows m = [map (fun r => Kernels.polynomial gamma degree r v) x]) /\
  (forall gamma beta theta, exists m, sigmoid_kernel gamma beta theta (to_mat d x) (to_row v) = Value m /\
     rows m = [map (fun r => Kernels.sigmoid_kernel gamma beta theta r v) x]) /\
  (forall gamma, exists m, rbf gamma (to_mat d x) (to_row v) = Value m /\ rows m = [map (fun r => Kernels.rbf gamma r v) x]).
Proof.
  intros d x v Hd Hx Hne Hv. split; [now apply linear_eq|]. split; [intros; now apply polynomial_eq|].
  split; [intros; now apply sigmoid_kernel_eq|intros; now apply rbf_eq].
Qed.
Print Assumptions C62_kernels.

(** Target types, if the C++ side keeps distinct elements distinct (short texts,
    numbers of 32 bits). *)
Theorem C62_target_type : forall A B (O : TotalOrder A) (same : B -> B -> bool) (kept : A -> B) (frac whole : A -> bool),
  (forall a b, same a b = true <-> a = b) -> forall k y,
  (forall a b, In a (Ops.elements y) -> In b (Ops.elements y) -> kept a = kept b -> a = b) ->
  (forall a, In a (Ops.elements y) -> whole a = negb (frac a)) -> (forall a, y <> Ops.A0 a) ->
  ends_like (fun t => t) (type_of_target same kept whole true k y) (Ops.type_of_target O frac k y).
Proof. exact (@target_eq). Qed.
Print Assumptions C62_target_type.

(** Initial centroids: random ones, explicit ones, indices. *)
Theorem C62_init_centroids : forall draw d x n, x <> [] -> (forall a b, Forall (fun i => (i < a)%nat) (draw a b)) ->
  ends_like (fun c => c) (init_centroids draw d x n Ops.InitRandom) (Ops.init_centroids draw d x n Ops.InitRandom) /\
  (forall r c data, (2 <= r)%nat -> (2 <= c)%nat -> (r * c <> n)%nat -> length (Ops.flat_reals data) = (r * c)%nat ->
     let a := Ops.InitArray {| Ops.shape := [r; c]; Ops.data := data |} in
     ends_like (fun c => c) (init_centroids draw d x n a) (Ops.init_centroids draw d x n a)) /\
  (forall l, (2 <= length l)%nat -> (2 <= d)%nat ->
     let a := Ops.InitArray {| Ops.shape := [length l]; Ops.data := Ops.Ints l |} in
     ends_like (fun c => c) (init_centroids draw d x n a) (Ops.init_centroids draw d x n a)).
Proof.
  intros draw d x n Hx Hd. split; [now apply init_random_eq|]. split; [intros; now apply init_explicit_eq|intros; now apply init_index_eq].
Qed.
Print Assumptions C62_init_centroids.

(** ** Operations that do not agree *)

(** Choosing the second multiplier: the answers are the same exactly if the
    first free sample is sample 0 or some free sample differs from the first
    one by a strictly larger error; otherwise C++ answers sample 0, free or
    not. *)
Theorem C62_second_multiplier : forall error cache flags first tail,
  length cache = length flags -> Ops.nonzero flags = first :: tail ->
  (ends_like (fun r => r) (select_second_alpha error cache (map flag flags)) (Ops.select_second_alpha error cache flags) <->
   first = 0%nat \/ exists j, In j (Ops.nonzero flags) /\ Rabs (error - nth first cache 0) < Rabs (error - nth j cache 0)) /\
  ((forall j, In j (Ops.nonzero flags) -> Rabs (error - nth j cache 0) <= Rabs (error - nth first cache 0)) ->
   select_second_alpha error cache (map flag flags) = Value (0%nat, nth 0 cache 0) /\
   Ops.select_second_alpha error cache flags = Ok (first, nth first cache 0)).
Proof.
  intros error cache flags first tail Hl Hf. split; [now apply (select_agree_iff error cache flags first tail)|].
  intros Ha. destruct (select_both error cache flags first tail Hl Hf) as [[(j & Hj & Lt) _]|[_ H]]; [|exact H].
  specialize (Ha j Hj). lra.
Qed.
Print Assumptions C62_second_multiplier.
(** So they can disagree, and C++ may answer a sample that is not free. *)
Theorem C62_second_multiplier_refuted : exists error cache flags i e,
  length cache = length flags /\ select_second_alpha error cache (map flag flags) = Value (i, e) /\ nth i flags false = false /\
  exists j e', Ops.select_second_alpha error cache flags = Ok (j, e') /\ nth j flags false = true.
Proof.
  exists 1, [5; 7], [false; true]. destruct (C62_second_multiplier 1 [5; 7] [false; true] 1%nat [] eq_refl eq_refl) as [_ H].
  destruct H as [H1 H2].
  { intros j [<-|[]]. apply Rle_refl. }
  exists 0%nat, 5. split; [reflexivity|]. split; [exact H1|]. split; [reflexivity|]. exists 1%nat, 7. split; [exact H2|reflexivity].
Qed.
Print Assumptions C62_second_multiplier_refuted.
Theorem C62_second_multiplier_none : forall error cache flags, (forall f, In f flags -> f = false) ->
  select_second_alpha error cache (map flag flags) = Undefined /\ Ops.select_second_alpha error cache flags = Err ValueError.
Proof. exact select_empty. Qed.
Print Assumptions C62_second_multiplier_none.

(** The smoothed prior: equal exactly for two classes. *)
Theorem C62_smoothed_prior : forall n y,
  (exists p, prior_probability n y true = Some p /\ Bayes.get_prior_probability n y true = Ok p) <->
  length (nodup Z.eq_dec y) = 2%nat.
Proof. exact prior_smoothed_iff. Qed.
Print Assumptions C62_smoothed_prior.

(** The second version of the projection vector, on one feature: Python divides
    by the scatter, C++ multiplies by it. *)
Theorem C62_projection2_one_feature : forall (svd : list (list R) -> list (list R) * list R * list (list R)) csvd s m0 m1 u sg v, s <> 0 ->
  svd [[s]] = ([[u]], [sg], [[v]]) -> csvd (to_mat 1 [[s]]) = (to_mat 1 [[u]], fun _ => sg, to_mat 1 [[v]]) ->
  u * u = 1 -> v * v = 1 -> u * sg * v = s ->
  Lda.get_w_v2 svd 1 [[s]] [m0] [m1] = Ok [(m0 - m1) / s] /\
  (exists r, get_w_v2 csvd (to_mat 1 [[s]]) (to_row [m0]) (to_row [m1]) = Value r /\ rows r = [[(m0 - m1) * s]]).
Proof. exact get_w_v2_one. Qed.
Print Assumptions C62_projection2_one_feature.
(** On any number of features the C++ version computes V^T Sigma U^T (mu_0 - mu_1),
    while the inverse of U Sigma V^T is V Sigma^-1 U^T. *)
Theorem C62_projection2 : forall csvd d s mu0 mu1 u sg v,
  length mu0 = d -> length mu1 = d -> length s = d -> length u = d -> length v = d ->
  csvd (to_mat d s) = (to_mat d u, sg, to_mat d v) ->
  exists r w, get_w_v2 csvd (to_mat d s) (to_row mu0) (to_row mu1) = Value r /\ rows r = [w] /\ length w = d /\
  forall i, (i < d)%nat -> nth i w 0 =
    sum_below d (fun j => sum_below d (fun k => entry v k i * sg k * entry u j k) * (nth j mu0 0 - nth j mu1 0)).
Proof.
  intros csvd d s mu0 mu1 u sg v L0 L1 Ls Lu Lv E. destruct (get_w_v2_value csvd d s mu0 mu1 u sg v L0 L1 Ls Lu Lv E) as (r & H & Hr).
  eexists r, _. split; [exact H|]. split; [exact Hr|]. split; [now rewrite map_length, seq_length|].
  intros i Hi. rewrite nth_map_seq by exact Hi. rewrite sum_rsum. unfold sum_below. apply rsum_ext. intros j _. rewrite sum_rsum. reflexivity.
Qed.
Print Assumptions C62_projection2.
Example C62_projection2_witness : exists csvd, csvd (to_mat 2 [[0; 1]; [2; 0]]) = (to_mat 2 [[0; 1]; [1; 0]], (fun k => nth k [2; 1] 0), to_mat 2 [[1; 0]; [0; 1]]).
Proof. now exists (fun _ => (to_mat 2 [[0; 1]; [1; 0]], (fun k => nth k [2; 1] 0), to_mat 2 [[1; 0]; [0; 1]])). Qed.
Example C62_projection2_case : 1 * 1 = 1 /\ 1 * 2 * 1 = 2 /\ (3 - 1) / 2 <> (3 - 1) * 2.
Proof. repeat split; lra. Qed.

(** Metrics refuse shapes that Python accepts, and give NaN where Python raises. *)
Theorem C62_metrics_shapes :
  (forall p t, length p <> length t -> p <> [] ->
     binary_accuracy (to_column p) (to_column (map IZR t)) = Throws ValueError /\ exists v, Metrics.binary_accuracy p t = Ok v) /\
  (forall c p l, (2 <= c)%nat -> rect c p -> length p = length l -> p <> [] ->
     accuracy (to_mat c p) (to_column (map IZR l)) = Throws ValueError /\ exists v, Metrics.accuracy c p (Metrics.Labels l) = Ok v) /\
  binary_accuracy (to_column []) (to_column []) = Value None /\ Metrics.binary_accuracy [] [] = Err ZeroDivisionError.
Proof. split; [exact binary_accuracy_lengths|]. split; [exact accuracy_class_numbers|exact binary_accuracy_empty]. Qed.
Print Assumptions C62_metrics_shapes.

(** Kernels of several rows of one feature. *)
Theorem C62_kernels_one_feature : forall x v gamma beta theta degree, (2 <= length x)%nat ->
  linear (to_mat 1 x) (to_row [v]) = Undefined /\ polynomial gamma degree (to_mat 1 x) (to_row [v]) = Undefined /\
  sigmoid_kernel gamma beta theta (to_mat 1 x) (to_row [v]) = Undefined /\ rbf gamma (to_mat 1 x) (to_row [v]) = Throws ValueError.
Proof. exact kernels_one_feature. Qed.
Print Assumptions C62_kernels_one_feature.

(** Explicit initial centroids for one cluster or one feature. *)
Theorem C62_init_centroids_singletons :
  (forall draw d x data, length (Ops.flat_reals data) = d ->
     let a := Ops.InitArray {| Ops.shape := [1%nat; d]; Ops.data := data |} in
     init_centroids draw d x 1 a = Value [Ops.flat_reals data] /\ Ops.init_centroids draw d x 1 a = Err ValueError) /\
  (forall draw x idx, (2 <= length idx)%nat -> Forall (fun i => (i < length x)%nat) idx ->
     let a := Ops.InitArray {| Ops.shape := [length idx]; Ops.data := Ops.Ints (map Z.of_nat idx) |} in
     init_centroids draw 1 x (length idx) a = Value (map (fun i => [INR i]) idx) /\
     Ops.init_centroids draw 1 x (length idx) a = Ok (map (fun i => nth i x []) idx)).
Proof. split; [exact init_one_cluster|exact init_one_feature]. Qed.
Print Assumptions C62_init_centroids_singletons.

(** Two labels of which C++ keeps the same part: binary in Python, unknown in
    C++. *)
Theorem C62_target_type_confused : forall A B (O : TotalOrder A) (same : B -> B -> bool) (kept : A -> B) (frac whole : A -> bool),
  (forall a b, same a b = true <-> a = b) -> forall a b, a <> b -> kept a = kept b ->
  type_of_target same kept whole true Ops.KOther (Ops.A1 [a; b]) = Value Ops.Unknown /\
  Ops.type_of_target O frac Ops.KOther (Ops.A1 [a; b]) = Ok Ops.Binary.
Proof. exact (@target_confused). Qed.
Print Assumptions C62_target_type_confused.

(** The hull of one point. *)
Theorem C62_hull_single : forall by_x by_slope points p, sorts_by_slope by_slope -> by_x points = [p] ->
  convex_hull by_x by_slope points = Value [p; p] /\ Model.Hull.compute_convex_hull by_x points = Err IndexError.
Proof. exact hull_single. Qed.
Print Assumptions C62_hull_single.
