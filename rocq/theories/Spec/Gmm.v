(** Specifications for C33, C34, C68. *)
From Coq Require Import List ZArith Reals.
From Verif.Model Require Matrix.
From Verif.Model Require Import Ops Gmm.
From Verif.Spec Require Import Common Smo KMeans.
Import ListNotations.
Local Open Scope R_scope.

(** [p] is a probability vector of length [n]. *)
Definition probability (n : nat) (p : list R) : Prop :=
  length p = n /\ Forall (fun q => 0 <= q) p /\ total p = 1.

Definition entry (m : list (list R)) (a b : nat) : R := nth b (nth a m []) 0.
Definition square (d : nat) (m : list (list R)) : Prop := length m = d /\ Forall (fun r => length r = d) m.
Definition symmetric_matrix (d : nat) (m : list (list R)) : Prop :=
  forall a b, (a < d)%nat -> (b < d)%nat -> entry m a b = entry m b a.
Definition psd_matrix (d : nat) (m : list (list R)) : Prop :=
  forall v : nat -> R, 0 <= sum_below d (fun a => sum_below d (fun b => v a * v b * entry m a b)).

(** Every coordinate lies between two sample coordinates. *)
Definition within_samples (d : nat) (x : list (list R)) (v : list R) : Prop :=
  length v = d /\ forall j, (j < d)%nat -> exists r r', In r x /\ In r' x /\ nth j r 0 <= nth j v 0 <= nth j r' 0.

(** [k] is the first position of the largest element. *)
Definition first_largest (l : list R) (k : nat) : Prop :=
  (k < length l)%nat /\ forall j, (j < length l)%nat -> nth j l 0 <= nth k l 0 /\ ((j < k)%nat -> nth j l 0 < nth k l 0).

(** Rounding keeps the sign. *)
Definition sign_preserving (rnd : R -> R) : Prop := forall p, 0 <= p -> 0 <= rnd p.

(** One-feature normal density and log-likelihood of a mixture. *)
Definition gauss (m s z : R) : R := 1 / sqrt (2 * PI * s) * exp (- (z - m) ^ 2 / (2 * s)).
Definition log_likelihood (zs : list R) (comps : list (R * (R * R))) : R :=
  total (map (fun z => ln (total (map (fun c => fst c * gauss (fst (snd c)) (snd (snd c)) z) comps))) zs).

(** Mixing weights given by the user: none, or [n] non-negative numbers. *)
Definition nonneg_mixture (n : nat) (i : cov_arg) : Prop :=
  match i with
  | CovArray a => flat_length (data a) = n /\ Forall (fun q => 0 <= q) (flat_reals (data a))
  | _ => True
  end.

(** Weight, mean and variance of every component of a one-feature mixture. *)
Definition components (t : params) : list (R * (R * R)) :=
  combine (alpha t) (combine (map (fun m => nth 0 m 0) (mu t)) (map (fun s => entry s 0 0) (sigma t))).

(** Several features.  Normal density at [r] with mean [m] and covariance matrix
    [s], where [q] is the inverse of [s] and [det] the expansion along the first
    row. *)
Definition normal (d : nat) (m : list R) (s q : list (list R)) (r : list R) : R :=
  let v a := nth a r 0 - nth a m 0 in
  exp (- (sum_below d (fun a => sum_below d (fun b => v a * v b * entry q a b)) / 2)) / sqrt ((2 * PI) ^ d * Matrix.det d s).
(** Log-likelihood of the rows [x] under a mixture with weights [al], means
    [ms], covariance matrices [ss] with inverses [qs]. *)
Definition mixture_log_likelihood (d : nat) (x : list (list R)) (al : list R) (ms : list (list R)) (ss qs : list (list (list R))) : R :=
  total (map (fun r => ln (total (map (fun c => fst c * normal d (fst (snd c)) (fst (snd (snd c))) (snd (snd (snd c))) r)
                                      (combine al (combine ms (combine ss qs)))))) x).

(** Along every direction some two samples differ. *)
Definition spanning (d : nat) (x : list (list R)) : Prop := forall v : nat -> R, (exists a, (a < d)%nat /\ v a <> 0) ->
  exists r r', In r x /\ In r' x /\ sum_below d (fun a => v a * nth a r 0) <> sum_below d (fun a => v a * nth a r' 0).
