(** Specifications for C47. *)
From Coq Require Import List ZArith Reals Arith.
From Verif.Spec Require Import Common Smo Gmm Matrix Logistic.
Import ListNotations.
Local Open Scope R_scope.

(** The rows of one class. *)
Definition class_rows (l : Z) (x : list (list R)) (y : list Z) : list (list R) :=
  map fst (filter (fun p => Z.eqb (snd p) l) (combine x y)).
Definition class_mean (j : nat) (rows : list (list R)) : R := total (map (fun r => nth j r 0) rows) / INR (length rows).
(** Entry (j, k) of the scatter of a class around its mean. *)
Definition class_scatter (rows : list (list R)) (j k : nat) : R :=
  total (map (fun r => (nth j r 0 - class_mean j rows) * (nth k r 0 - class_mean k rows)) rows).
(** [w] solves the linear system [m w = v]. *)
Definition solves (d : nat) (m : list (list R)) (w v : list R) : Prop :=
  length w = d /\ forall i, (i < d)%nat -> sum_below d (fun k => entry m i k * nth k w 0) = nth i v 0.
Definition quadratic_form (d : nat) (m : list (list R)) (v : list R) : R :=
  sum_below d (fun i => sum_below d (fun k => nth i v 0 * nth k v 0 * entry m i k)).
(** [n] by [n] matrices [U], [Vt] with orthonormal columns and rows, singular
    values in descending order, and the product [U diag Sigma Vt = s]. *)
Definition singular_value_decomposition (n : nat) (s U : list (list R)) (Sigma : list R) (Vt : list (list R)) : Prop :=
  square n U /\ square n Vt /\ length Sigma = n /\
  (forall i j, (i < n)%nat -> (j < n)%nat -> sum_below n (fun k => entry U k i * entry U k j) = if (i =? j)%nat then 1 else 0) /\
  (forall i j, (i < n)%nat -> (j < n)%nat -> sum_below n (fun k => entry Vt i k * entry Vt j k) = if (i =? j)%nat then 1 else 0) /\
  (forall i, (i < n)%nat -> 0 <= nth i Sigma 0) /\
  (forall i j, (i <= j)%nat -> (j < n)%nat -> nth j Sigma 0 <= nth i Sigma 0) /\
  (forall i j, (i < n)%nat -> (j < n)%nat -> sum_below n (fun k => entry U i k * nth k Sigma 0 * entry Vt k j) = entry s i j).
(** The sum of the scatter matrices of the two classes. *)
Definition scatter_matrix (d : nat) (x : list (list R)) (y : list Z) (s : list (list R)) : Prop :=
  square d s /\ forall j k, (j < d)%nat -> (k < d)%nat -> entry s j k = class_scatter (class_rows 0 x y) j k + class_scatter (class_rows 1 x y) j k.
(** [svd] decomposes the scatter matrix of the data correctly. *)
Definition decomposes (svd : list (list R) -> list (list R) * list R * list (list R)) (d : nat) (x : list (list R)) (y : list Z) : Prop :=
  forall s, scatter_matrix d x y s -> let '(U, Sg, Vt) := svd s in singular_value_decomposition d s U Sg Vt.
