(** C33, C34, C68: Gaussian mixture clustering. *)
From Coq Require Import List ZArith Reals Lra Lia.
From Verif.Model Require Import Base Ops Matrix Gmm.
From Verif.Spec Require Import Common Ops KMeans Smo Gmm Matrix.
From Verif.Proof Require Import BaseLemmas Smo Gmm GmmMain GmmAscent.
Import ListNotations.
Local Open Scope R_scope.

(** ** C33 *)
Theorem C33_responsibilities : forall rnd d, sign_preserving rnd -> forall n t x gamma,
  length (mu t) = n /\ length (sigma t) = n /\ length (alpha t) = n ->
  Forall (fun a => 0 <= a) (alpha t) -> 0 < total (alpha t) ->
  posterior rnd d t x = Ok gamma ->
  length gamma = length x /\ Forall (probability n) gamma /\
  (forall i j, (i < n)%nat -> (j < length x)%nat -> 0 < nth i (alpha t) 0 -> 0 < nth i (nth j gamma []) 0).
Proof. exact posterior_spec. Qed.
Print Assumptions C33_responsibilities.

Theorem C33_training : forall rnd d randint x n i_mu i_cov i_mix tol epochs t clusters,
  sign_preserving rnd -> valid_randint randint -> rect d x -> x <> [] ->
  (1 <= n)%nat -> consistent i_mu -> nonneg_mixture n i_mix ->
  gm_fit rnd d randint x n i_mu i_cov i_mix tol epochs = Ok (t, clusters) ->
  length (mu t) = n /\ length (sigma t) = n /\ probability n (alpha t) /\
  exists gamma, posterior rnd d t x = Ok gamma /\ Forall (probability n) gamma /\ Forall2 first_largest gamma clusters.
Proof.
  intros rnd d randint x n i_mu i_cov i_mix tol epochs t clusters Sr V Rx Hx Hn Cs Hm H.
  destruct (fit_good _ _ _ _ _ _ _ _ _ _ _ _ Sr V Rx Hx Hn Cs Hm H) as (t0 & _ & A & B & C & _ & D). auto.
Qed.
Print Assumptions C33_training.

(** ** C34 *)
Theorem C34_every_round : forall rnd d, sign_preserving rnd -> forall n x t t', x <> [] ->
  (length (mu t) = n /\ length (sigma t) = n /\ length (alpha t) = n) /\ probability n (alpha t) ->
  em_round rnd d n x t = Ok t' ->
  Forall (within_samples d x) (mu t') /\
  Forall (fun c => square d c /\ symmetric_matrix d c /\ psd_matrix d c) (sigma t').
Proof. intros rnd d Sr n x t t' Hx G H. exact (proj2 (round_good rnd d Sr n x t t' Hx G H)). Qed.
Print Assumptions C34_every_round.

Theorem C34_training : forall rnd d randint x n i_mu i_cov i_mix tol epochs t clusters,
  sign_preserving rnd -> valid_randint randint -> rect d x -> x <> [] ->
  (1 <= n)%nat -> consistent i_mu -> nonneg_mixture n i_mix ->
  gm_fit rnd d randint x n i_mu i_cov i_mix tol epochs = Ok (t, clusters) ->
  exists t0, gm_init d randint x n i_mu i_cov i_mix = Ok t0 /\
  (t = t0 \/ (Forall (within_samples d x) (mu t) /\
              Forall (fun c => square d c /\ symmetric_matrix d c /\ psd_matrix d c) (sigma t))).
Proof.
  intros rnd d randint x n i_mu i_cov i_mix tol epochs t clusters Sr V Rx Hx Hn Cs Hm H.
  destruct (fit_good _ _ _ _ _ _ _ _ _ _ _ _ Sr V Rx Hx Hn Cs Hm H) as (t0 & A & _ & _ & _ & B & _). eauto.
Qed.
Print Assumptions C34_training.

Theorem C34_random_start : forall randint d x n c, valid_randint randint -> rect d x -> x <> [] ->
  init_centroids randint d x n InitRandom = Ok c -> Forall (within_samples d x) c.
Proof. exact random_within. Qed.
Print Assumptions C34_random_start.

(** The hypotheses of C33 and C34: three samples, two components, any number of rounds. *)
Example C34_witness : forall epochs, exists t clusters,
  gm_fit (fun p => p) 1 (fun _ b => repeat 0%nat b) [[0]; [1]; [5]] 2 InitRandom CovNone CovNone (1/1000) epochs = Ok (t, clusters) /\
  rect 1 [[0]; [1]; [5]] /\ consistent InitRandom /\ nonneg_mixture 2 CovNone /\ sign_preserving (fun p => p).
Proof.
  intros epochs. destruct (fit_ok (fun p => p) (fun p => eq_refl) (fun _ b => repeat 0%nat b) [0; 1; 5] 2 (1/1000) epochs) as (t & cl & H).
  - intros a b Ha. split; [apply repeat_length|]. apply Forall_forall. intros i Hi. pose proof (repeat_spec _ _ _ Hi). subst. lia.
  - lia.
  - exists 0, 1. split; [left; reflexivity|]. split; [right; left; reflexivity|lra].
  - exists t, cl. split; [exact H|]. split; [repeat constructor|]. split; [exact I|]. split; [exact I|]. intros p Hp. exact Hp.
Qed.
Example C33_witness : forall epochs, exists t clusters gamma,
  gm_fit (fun p => p) 1 (fun _ b => repeat 0%nat b) [[0]; [1]; [5]] 2 InitRandom CovNone CovNone (1/1000) epochs = Ok (t, clusters) /\
  posterior (fun p => p) 1 t [[0]; [1]; [5]] = Ok gamma /\ length gamma = 3%nat.
Proof.
  intros epochs. destruct (C34_witness epochs) as (t & cl & H & Rx & Cs & Nm & Sp).
  destruct (C33_training (fun p => p) 1 (fun _ b => repeat 0%nat b) [[0]; [1]; [5]] 2 InitRandom CovNone CovNone (1/1000) epochs t cl Sp) as (A & B & P & gamma & E & _); auto; try discriminate.
  - intros a b Ha. split; [apply repeat_length|]. apply Forall_forall. intros i Hi. pose proof (repeat_spec _ _ _ Hi). subst. lia.
  - exists t, cl, gamma. split; [exact H|]. split; [exact E|].
    destruct P as (L & P0 & P1). refine (proj1 (C33_responsibilities (fun p => p) 1 Sp 2 t [[0]; [1]; [5]] gamma _ P0 _ E)); [auto|]. rewrite P1. lra.
Qed.

(** ** C68: exact densities, any number of features and components. *)
Theorem C68_likelihood : forall rnd, (forall p, rnd p = p) ->
  forall d randint x n i_mu i_cov i_mix tol epochs t0 t clusters, valid_randint randint -> rect d x -> x <> [] -> (1 <= n)%nat ->
  consistent i_mu -> nonneg_mixture n i_mix ->
  gm_init d randint x n i_mu i_cov i_mix = Ok t0 ->
  Forall (fun s => square d s /\ symmetric_matrix d s /\ psd_matrix d s) (sigma t0) ->
  gm_fit rnd d randint x n i_mu i_cov i_mix tol epochs = Ok (t, clusters) ->
  exists q0 q, Forall2 (inverse_of d) (sigma t0) q0 /\ Forall2 (inverse_of d) (sigma t) q /\
  mixture_log_likelihood d x (alpha t0) (mu t0) (sigma t0) q0 <= mixture_log_likelihood d x (alpha t) (mu t) (sigma t) q.
Proof. exact fit_ascends_many. Qed.
Print Assumptions C68_likelihood.

(** One more epoch never lowers it either. *)
Theorem C68_every_round : forall rnd, (forall p, rnd p = p) ->
  forall d n x t t', x <> [] -> rect d x ->
  length (mu t) = n -> length (sigma t) = n -> probability n (alpha t) -> rect d (mu t) ->
  Forall (fun s => square d s /\ symmetric_matrix d s /\ psd_matrix d s) (sigma t) ->
  em_round rnd d n x t = Ok t' -> Forall (fun s => exists q, inverse_of d s q) (sigma t') ->
  exists q q', Forall2 (inverse_of d) (sigma t) q /\ Forall2 (inverse_of d) (sigma t') q' /\
  mixture_log_likelihood d x (alpha t) (mu t) (sigma t) q <= mixture_log_likelihood d x (alpha t') (mu t') (sigma t') q'.
Proof. exact round_ascends. Qed.
Print Assumptions C68_every_round.

(** With the default covariance matrices and weights, a random start and samples
    that span the space, training returns, so the likelihood claim applies. *)
Theorem C68_default_start : forall rnd, (forall p, rnd p = p) ->
  forall d randint x n tol epochs, valid_randint randint -> rect d x -> x <> [] -> (1 <= n)%nat -> spanning d x ->
  exists t0 t clusters q0 q, gm_init d randint x n InitRandom CovNone CovNone = Ok t0 /\
  gm_fit rnd d randint x n InitRandom CovNone CovNone tol epochs = Ok (t, clusters) /\
  Forall2 (inverse_of d) (sigma t0) q0 /\ Forall2 (inverse_of d) (sigma t) q /\
  mixture_log_likelihood d x (alpha t0) (mu t0) (sigma t0) q0 <= mixture_log_likelihood d x (alpha t) (mu t) (sigma t) q.
Proof. exact default_start. Qed.
Print Assumptions C68_default_start.

(** The same for any start with positive weights and positive definite matrices. *)
Theorem C68_training_returns : forall rnd, (forall p, rnd p = p) ->
  forall d randint x n i_mu i_cov i_mix tol epochs t0, valid_randint randint -> rect d x -> x <> [] -> (1 <= n)%nat ->
  consistent i_mu -> nonneg_mixture n i_mix -> spanning d x ->
  gm_init d randint x n i_mu i_cov i_mix = Ok t0 -> Forall (fun a => 0 < a) (alpha t0) ->
  Forall (fun s => square d s /\ symmetric_matrix d s /\ psd_matrix d s /\ exists q, inverse_of d s q) (sigma t0) ->
  exists t clusters, gm_fit rnd d randint x n i_mu i_cov i_mix tol epochs = Ok (t, clusters).
Proof. exact fit_many_ok. Qed.
Print Assumptions C68_training_returns.

(** One feature, stated with the usual density formula. *)
Theorem C68_likelihood_one_feature : forall rnd, (forall p, rnd p = p) ->
  forall randint zs n i_mu i_cov i_mix tol epochs t clusters, valid_randint randint -> zs <> [] -> (1 <= n)%nat ->
  consistent i_mu -> nonneg_mixture n i_mix ->
  gm_fit rnd 1 randint (map (fun z => [z]) zs) n i_mu i_cov i_mix tol epochs = Ok (t, clusters) ->
  exists t0, gm_init 1 randint (map (fun z => [z]) zs) n i_mu i_cov i_mix = Ok t0 /\
  log_likelihood zs (components t0) <= log_likelihood zs (components t).
Proof. exact fit_ascends. Qed.
Print Assumptions C68_likelihood_one_feature.

(** With two different sample values every training on one feature returns. *)
Theorem C68_one_feature_succeeds : forall rnd, (forall p, rnd p = p) ->
  forall randint zs n tol epochs, valid_randint randint -> (1 <= n)%nat -> (exists u v, In u zs /\ In v zs /\ u <> v) ->
  exists t clusters, gm_fit rnd 1 randint (map (fun z => [z]) zs) n InitRandom CovNone CovNone tol epochs = Ok (t, clusters).
Proof. exact fit_ok. Qed.
Print Assumptions C68_one_feature_succeeds.

(** A case that meets the hypotheses of C33, C34 and C68: three samples, two
    components, any number of rounds. *)
Example C68_witness : forall epochs, exists t clusters,
  gm_fit (fun p => p) 1 (fun _ b => repeat 0%nat b) [[0]; [1]; [5]] 2 InitRandom CovNone CovNone (1/1000) epochs = Ok (t, clusters) /\
  rect 1 [[0]; [1]; [5]] /\ consistent InitRandom /\ nonneg_mixture 2 CovNone /\ sign_preserving (fun p => p).
Proof.
  intros epochs. destruct (fit_ok (fun p => p) (fun p => eq_refl) (fun _ b => repeat 0%nat b) [0; 1; 5] 2 (1/1000) epochs) as (t & cl & H).
  - intros a b Ha. split; [apply repeat_length|]. apply Forall_forall. intros i Hi. pose proof (repeat_spec _ _ _ Hi). subst. lia.
  - lia.
  - exists 0, 1. split; [left; reflexivity|]. split; [right; left; reflexivity|lra].
  - exists t, cl. split; [exact H|]. split; [repeat constructor|]. split; [exact I|]. split; [exact I|]. intros p Hp. exact Hp.
Qed.

(** Two features: three corners of a triangle span the plane. *)
Example C68_two_feature_witness : rect 2 [[0; 0]; [1; 0]; [0; 3]] /\ spanning 2 [[0; 0]; [1; 0]; [0; 3]].
Proof.
  split; [repeat constructor|]. intros v (a & Ha & Hv).
  destruct a as [|[|a]]; [| |lia].
  - exists [0; 0], [1; 0]. split; [left; reflexivity|]. split; [right; left; reflexivity|]. intros E. apply Hv. unfold sum_below, total in E. simpl in E. lra.
  - exists [0; 0], [0; 3]. split; [left; reflexivity|]. split; [right; right; left; reflexivity|]. intros E. apply Hv. unfold sum_below, total in E. simpl in E. lra.
Qed.
