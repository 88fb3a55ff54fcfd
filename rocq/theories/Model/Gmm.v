(** Model of the Gaussian mixture: classicML/api/models/cluster/gaussian_mixture.py
    92-172 and ops.py 153-181, 247-286, 409-498. Floats are exact reals, except that
    the density is rounded by [rnd] (line 493), so that it can underflow to zero.
    [d] is the number of features. Where the code goes on with NaN the model answers
    [Err NotANumber]. *)
From Coq Require Import List ZArith Reals Bool Arith.
From Verif.Model Require Import Base Ops KMeans Matrix.
Import ListNotations.
Local Open Scope R_scope.

(** The fields [mu], [sigma] and [alpha] (gaussian_mixture.py 60-62). *)
Record params := { mu : list (list R); sigma : list (list (list R)); alpha : list R }.

Section Gmm.
Variable rnd : R -> R.
Variable d : nat.

(** ops.py 473-498 [get_normal_distribution_probability_density].  The square
    root of a negative determinant is NaN. *)
Definition normal_density (sample mean : list R) (var : list (list R)) : result R :=
  if Rltb (det d var) 0 then Err NotANumber
  else
    inv <- inverse d var ;;
    let p := 1 / (sqrt (det d var) * Rpower (2 * PI) (INR (length sample) / 2)) *
             exp (-1/2 * dot (vec_mat d (vsub sample mean) inv) (vsub sample mean)) in
    if Reqb (rnd p) 0 then Ok (1 / 10 ^ 36) else Ok (rnd p).

(** The densities of every component at one sample. (ops.py 436, 468). *)
Definition densities (t : params) (r : list R) : result (list R) :=
  mapM (fun c => normal_density r (fst c) (snd c)) (combine (mu t) (sigma t)).

(** ops.py 442-470 and 409-439
    [get_gaussian_mixture_distribution_posterior_probability]: one row. *)
Definition posterior_row (t : params) (r : list R) : result (list R) :=
  ps <- densities t r ;;
  let joint := map (fun c => fst c * snd c) (combine (alpha t) ps) in
  let p_mx := rsum joint in
  if Reqb p_mx 0 then Err NotANumber else Ok (map (fun q => q / p_mx) joint).
(** The same for all rows (ops.py 409-439). *)
Definition posterior (t : params) (x : list (list R)) : result (list (list R)) := mapM (posterior_row t) x.

(** ops.py 247-269 [calculate_means] for component [i]. *)
Definition weighted_mean (x gamma : list (list R)) (i : nat) : result (list R) :=
  let s := rsum (column 0 gamma i) in
  if Reqb s 0 then Err NotANumber
  else Ok (map (fun j => rsum (map (fun p => nth i (snd p) 0 * nth j (fst p) 0) (combine x gamma)) / s) (seq 0 d)).
(** ops.py 247-269 [calculate_means]. *)
Definition calculate_means (n : nat) (x gamma : list (list R)) : result (list (list R)) :=
  mapM (weighted_mean x gamma) (seq 0 n).

(** ops.py 153-181 [calculate_covariances] for component [i]. *)
Definition weighted_cov (x gamma : list (list R)) (mean : list R) (i : nat) : result (list (list R)) :=
  let s := rsum (column 0 gamma i) in
  if Reqb s 0 then Err NotANumber
  else Ok (map (fun a => map (fun b =>
         rsum (map (fun p => nth i (snd p) 0 * ((nth a (fst p) 0 - nth a mean 0) * (nth b (fst p) 0 - nth b mean 0)))
                   (combine x gamma)) / s) (seq 0 d)) (seq 0 d)).
(** ops.py 153-181 [calculate_covariances]. *)
Definition calculate_covariances (n : nat) (x means gamma : list (list R)) : result (list (list (list R))) :=
  mapM (fun i => weighted_cov x gamma (nth i means []) i) (seq 0 n).

(** ops.py 272-286 [calculate_mixture_coefficient]. *)
Definition calculate_mixture (n : nat) (number_of_sample : nat) (gamma : list (list R)) : list R :=
  map (fun i => 1 * 1 / INR number_of_sample * rsum (column 0 gamma i)) (seq 0 n).

(** gaussian_mixture.py 115-123: one EM round. *)
Definition em_round (n : nat) (x : list (list R)) (t : params) : result params :=
  gamma <- posterior t x ;;
  m <- calculate_means n x gamma ;;
  s <- calculate_covariances n x m gamma ;;
  Ok {| mu := m; sigma := s; alpha := calculate_mixture n (length x) gamma |}.

(** ops.py 313-332 [compare_differences] of two rows followed by [.any()]. *)
Definition far (tol : R) (a b : list R) : bool := existsb (fun p => Rltb tol (Rabs (fst p - snd p))) (combine a b).
(** gaussian_mixture.py 125-127: some entry moved by more than [tol]. *)
Definition moved (tol : R) (t t' : params) : bool :=
  existsb (fun p => far tol (fst p) (snd p)) (combine (mu t) (mu t')) ||
  existsb (fun p => existsb (fun q => far tol (fst q) (snd q)) (combine (fst p) (snd p))) (combine (sigma t) (sigma t')) ||
  far tol (alpha t) (alpha t').

(** gaussian_mixture.py 113-132: the training loop; if nothing moved the old
    parameters stay. *)
Fixpoint gm_loop (n : nat) (x : list (list R)) (tol : R) (epochs : nat) (t : params) : result params :=
  match epochs with
  | O => Ok t
  | S epochs' =>
      t' <- em_round n x t ;;
      if moved tol t t' then gm_loop n x tol epochs' t' else Ok t
  end.

(** gaussian_mixture.py 141-172 [predict]: the first minimum of the negated row. *)
Definition gm_predict (t : params) (x : list (list R)) : result (list nat) :=
  gamma <- posterior t x ;;
  mapM (fun row => argmin Rltb (map Ropp row)) gamma.

(** gaussian_mixture.py 109-111: the initial parameters. *)
Definition gm_init (randint : nat -> nat -> list nat) (x : list (list R)) (n : nat) (i_mu : init_arg) (i_cov i_mix : cov_arg)
  : result params :=
  m <- init_centroids randint d x n i_mu ;;
  s <- init_covariances d n i_cov ;;
  a <- init_mixture_coefficient n i_mix ;;
  Ok {| mu := m; sigma := s; alpha := a |}.
(** gaussian_mixture.py 92-139 [fit]: the stored parameters and clusters. *)
Definition gm_fit (randint : nat -> nat -> list nat) (x : list (list R)) (n : nat) (i_mu : init_arg) (i_cov i_mix : cov_arg)
  (tol : R) (epochs : nat) : result (params * list nat) :=
  t0 <- gm_init randint x n i_mu i_cov i_mix ;;
  t <- gm_loop n x tol epochs t0 ;;
  clusters <- gm_predict t x ;;
  Ok (t, clusters).
End Gmm.
