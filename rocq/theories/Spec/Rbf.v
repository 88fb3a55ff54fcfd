(** Specifications for C51. *)
From Coq Require Import List Reals.
From Verif.Spec Require Import Common Smo KMeans.
Import ListNotations.
Local Open Scope R_scope.

(** The output for one row: weights [w], bias [b], centres [cs], widths [beta]. *)
Definition bump (be : R) (c r : list R) : R := exp (- be * sq_dist r c).
Definition rbf_output (w : list R) (b : R) (cs : list (list R)) (beta r : list R) : R :=
  sum_below (length cs) (fun u => nth u w 0 * bump (nth u beta 0) (nth u cs []) r) + b.
(** Half of the mean squared error, and half of the mean squared output. *)
Definition half_error (x : list (list R)) (y : list R) (w : list R) (b : R) (cs : list (list R)) (beta : list R) : R :=
  total (map (fun p => (rbf_output w b cs beta (fst p) - snd p) ^ 2) (combine x y)) / (2 * INR (length x)).
Definition half_mean_square (x : list (list R)) (w : list R) (b : R) (cs : list (list R)) (beta : list R) : R :=
  total (map (fun r => rbf_output w b cs beta r ^ 2) x) / (2 * INR (length x)).
