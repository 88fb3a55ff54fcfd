(** Specifications for C44 to C46, C70 and C71. *)
From Coq Require Import List ZArith Reals.
From Verif.Spec Require Import Common Smo.
Import ListNotations.
Local Open Scope R_scope.

(** The linear score: weights times features plus the last parameter. *)
Definition score (beta r : list R) : R :=
  sum_below (length r) (fun j => nth j beta 0 * nth j r 0) + nth (length r) beta 0.
(** The negative log-likelihood of labels 0 and 1. *)
Definition neg_log_likelihood (x : list (list R)) (y : list Z) (beta : list R) : R :=
  total (map (fun p => ln (1 + exp (score beta (fst p))) - IZR (snd p) * score beta (fst p)) (combine x y)).
(** A data set with [d] features and parameters for it. *)
Definition fits (d : nat) (x : list (list R)) (y : list Z) (beta : list R) : Prop :=
  length x = length y /\ Forall (fun r => length r = d) x /\ length beta = S d.
(** Replacing one parameter. *)
Definition with_param (j : nat) (t : R) (beta : list R) : list R := firstn j beta ++ t :: skipn (S j) beta.
(** The point at [t] of the line from [a] to [b]. *)
Definition between (t : R) (a b : list R) : list R := map (fun p => (1 - t) * fst p + t * snd p) (combine a b).
Definition inner (a b : list R) : R := sum_below (length a) (fun j => nth j a 0 * nth j b 0).
Definition difference (b a : list R) : list R := map (fun p => fst p - snd p) (combine b a).
(** [g] lists the partial derivatives of the negative log-likelihood at [beta]. *)
Definition is_gradient (x : list (list R)) (y : list Z) (beta g : list R) : Prop :=
  length g = length beta /\ forall j, (j < length beta)%nat ->
    derivable_pt_lim (fun t => neg_log_likelihood x y (with_param j t beta)) (nth j beta 0) (nth j g 0).
(** All partial derivatives vanish. *)
Definition stationary_point (x : list (list R)) (y : list Z) (beta : list R) : Prop :=
  is_gradient x y beta (map (fun _ => 0) beta).
(** No other parameters have a smaller negative log-likelihood. *)
Definition minimises (x : list (list R)) (y : list Z) (beta : list R) : Prop :=
  forall beta', length beta' = length beta -> neg_log_likelihood x y beta <= neg_log_likelihood x y beta'.
(** A quarter of the sum of the squared lengths of the rows with the constant. *)
Definition curvature_bound (x : list (list R)) : R := total (map (fun r => 1 + inner r r) x) / 4.
Definition sq_length (v : list R) : R := inner v v.
(** Some parameters other than zero give every row the score 0. *)
Definition collinear (d : nat) (x : list (list R)) : Prop :=
  exists v, length v = S d /\ (exists j, (j < S d)%nat /\ nth j v 0 <> 0) /\ forall r, In r x -> score v r = 0.
