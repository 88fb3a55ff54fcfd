(** Vocabulary for C109: the features in another order. *)
From Coq Require Import List ZArith Reals Permutation.
From Verif.Model Require Import Ops.
From Verif.Spec Require Import Common Smo Gmm Units.
Import ListNotations.
Local Open Scope R_scope.

(** [s] lists the numbers of the [d] features in the new order. *)
Definition new_order (d : nat) (s : list nat) : Prop := Permutation s (seq 0 d).
(** A row with its entries in the new order. *)
Definition reordered (s : list nat) (r : list R) : list R := map (fun j => nth j r 0) s.
(** The weights of a linear model: the constant stays last. *)
Definition weights_reordered (d : nat) (s : list nat) (w : list R) : list R := reordered (s ++ [d]) w.
(** A square matrix with rows and columns in the new order. *)
Definition grid_reordered (s : list nat) (m : list (list R)) : list (list R) := map (fun i => map (fun j => entry m i j) s) s.
(** The same [n] starting points: rows of the data, or an array of points. *)
Definition same_starts (d : nat) (s : list nat) (n : nat) (i i' : init_arg) : Prop :=
  (starts_at_rows i /\ i' = i) \/
  exists rows, length rows = n /\ (1 < n)%nat /\ (1 < d)%nat /\ width d rows /\
    i = start_array rows d /\ i' = start_array (map (reordered s) rows) d.
(** An array of [d] by [d] matrices. *)
Definition matrix_array (d : nat) (ms : list (list (list R))) : cov_arg :=
  CovArray {| shape := [length ms; d; d]; data := Floats (concat (map (@concat R) ms)) |}.
(** The same [n] starting covariances: the default, or an array of matrices. *)
Definition same_covariances (d : nat) (s : list nat) (n : nat) (i i' : cov_arg) : Prop :=
  (i = CovNone /\ i' = CovNone) \/
  exists ms, length ms = n /\ (1 < n)%nat /\ (1 < d)%nat /\ Forall (square d) ms /\
    i = matrix_array d ms /\ i' = matrix_array d (map (grid_reordered s) ms).
(** The parameters of a network: the weights of the first layer follow the features. *)
Definition layers_reordered (s : list nat) (ls : list (list (list R) * list R)) : list (list (list R) * list R) :=
  match ls with [] => [] | (w, b) :: t => (map (reordered s) w, b) :: t end.
(** The neurons of the first layer have one weight for each of [d] features. *)
Definition takes_features (d : nat) (ls : list (list (list R) * list R)) : Prop :=
  match ls with [] => True | (w, _) :: _ => width d w end.
